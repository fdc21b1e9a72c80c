(** Levels, graphs, radio maps and the level collector.
    Models src/level.cpp, src/level_collector.cpp, src/radiomap.cpp,
    src/level_geometry.cpp and include/.../graph.h. *)
From Verif Require Export Geo.
Set Implicit Arguments.

Section Graph.
Context {P : Type}.

(** graph.h:34-37 hasVertex *)
Definition has_vertex (g : graph P) (i : Z) : bool :=
  (0 <=? i)%Z && (i <? Z.of_nat (List.length (g_verts g)))%Z.

(** graph.h:39-47 vertex / getVertex: std::vector::at with the int converted
    to an unsigned index (a negative id is out of range) *)
Definition get_vertex (g : graph P) (i : Z) : res (Z * P) :=
  if has_vertex g i then at_or_throw (nth_error (g_verts g) (Z.to_nat i)) else Throw.

(** graph.h:69-74 addVertex *)
Definition add_vertex (g : graph P) (p : P) : graph P :=
  mkGraph (g_verts g ++ [(Z.of_nat (List.length (g_verts g)), p)]) (g_edges g).

Definition pair_ltb (a b : Z * Z) : bool :=
  (fst a <? fst b)%Z || ((fst a =? fst b)%Z && (snd a <? snd b)%Z).

(** std::set<std::pair<int,int>>::insert: sorted, no duplicates *)
Fixpoint set_insert (e : Z * Z) (l : list (Z * Z)) : list (Z * Z) :=
  match l with
  | [] => [e]
  | x :: t => if pair_ltb e x then e :: x :: t
              else if pair_ltb x e then x :: set_insert e t
              else x :: t
  end.

(** graph.h:76-84 addEdge *)
Definition add_edge (g : graph P) (v1 v2 : Z) : res (graph P) :=
  if negb (has_vertex g v1) || negb (has_vertex g v2) then Throw
  else
    let p := if (v1 <? v2)%Z then (v1, v2) else (v2, v1) in
    Ok (mkGraph (g_verts g) (set_insert p (g_edges g))).
End Graph.
Arguments graph P : clear implicits.

Section Level.
Context {F : Type} {NF : Num F}.

Definition graph0 {P : Type} : graph P := mkGraph [] [].

(** level.cpp:37-40 containsTransmitter *)
Definition contains_tx (l : level F) (tx : string) : bool := amem tx (l_txs l).
(** level.cpp:42-45 transmitter: throws when absent *)
Definition get_tx (l : level F) (tx : string) : res (transmitter F) :=
  at_or_throw (alookup tx (l_txs l)).
(** level.cpp:47-51 addTransmitters on an empty map *)
Definition tx_map (txs : list (transmitter F)) : list (string * transmitter F) :=
  fold_left (fun m t => ainsert (t_id t) t m) txs [].
(** level.cpp:69-80 getLevelRadioMeasurements *)
Definition level_radio (l : level F) (ms : list (radio F)) : list (radio F) :=
  filter (fun m => contains_tx l (r_id m)) ms.

Fixpoint index_from {A : Type} (key : A -> string) (i : nat) (l : list A)
    (acc : list (string * nat)) : list (string * nat) :=
  match l with
  | [] => acc
  | x :: t => index_from key (S i) t (ainsert (key x) i acc)
  end.

(** radiomap.cpp:12-17 Radiomap(referencePoints) *)
Definition mk_radiomap (rps : list (refpoint F)) : radiomap F :=
  mkRM rps (index_from (@rp_id F) 0 rps []).
(** radiomap.cpp:24-27 hasReferencePoint *)
Definition has_rp (m : radiomap F) (rid : string) : bool := amem rid (rm_index m).
(** radiomap.cpp:29-32 getReferencePoint *)
Definition get_rp (m : radiomap F) (rid : string) : res (refpoint F) :=
  i <- at_or_throw (alookup rid (rm_index m)) ;; at_or_throw (nth_error (rm_points m) i).

(** level_collector.cpp:14-30 getTransmittersInLocalCoordinates *)
Definition local_tx (b : Geo F) (alt : F) (t : gtransmitter F) : transmitter F :=
  let p := gps_to_local (mkGeo (gt_lat t) (gt_lon t)) b in
  mkTx (gt_id t) (mkXYZ (px p) (py p) (alt +! gt_alt t)) (gt_pl t) (gt_type t).
(** level_collector.cpp:32-45 getRefPointsInLocalCoordinates *)
Definition local_rp (b : Geo F) (r : grefpoint F) : refpoint F :=
  mkRP (grp_id r) (gps_to_local (grp_pt r) b) (grp_fp r).
(** level_collector.cpp:70-75 getBBoxInLocalCoordinates.  A geographic box has
    latitude in x and longitude in y. *)
Definition local_box (b : Geo F) (g : box F) : box F :=
  mkBox (gps_to_local (mkGeo (px (bmin g)) (py (bmin g))) b)
        (gps_to_local (mkGeo (px (bmax g)) (py (bmax g))) b).

(** level_collector.cpp:94-117 getGraphInLocalCoordinates; the id map is an
    association list with newest binding first *)
Definition local_graph (b : Geo F) (g : graph (Geo F)) : res (graph (XY F)) :=
  let '(xy, ids) :=
    fold_left (fun (acc : graph (XY F) * list (Z * Z)) v =>
      let '(xy, ids) := acc in
      (add_vertex xy (gps_to_local (snd v) b),
       (fst v, Z.of_nat (List.length (g_verts xy))) :: ids))
      (g_verts g) (graph0, []) in
  let look i := match find (fun e => Z.eqb (fst e) i) ids with Some e => snd e | None => 0%Z end in
  fold_left (fun (acc : res (graph (XY F))) e =>
    xy <- acc ;;
    v1 <- get_vertex g (fst e) ;;
    v2 <- get_vertex g (snd e) ;;
    add_edge xy (look (fst v1)) (look (fst v2))) (g_edges g) (Ok xy).

(** level_collector.cpp:154-161 getBinding *)
Definition get_binding (g : geolevel F) : Geo F :=
  let b := correct_box (gl_box g) in mkGeo (px (bmin b)) (py (bmin b)).

(** level_collector.cpp:163-173 the local level built from a GeoLevel; the
    local bounding box is corrected (lines 88-89) *)
Definition local_level (g : geolevel F) : res (level F) :=
  let b := get_binding g in
  gr <- local_graph b (gl_graph g) ;;
  Ok (mkLevel (gl_id g) b
        (tx_map (map (local_tx b (gl_alt g)) (gl_txs g)))
        (mk_radiomap (map (local_rp b) (gl_rps g)))
        (correct_box (local_box b (gl_box g)))
        (gl_allowed g) gr).

Definition col0 : collector F := mkCol [] [].

(** level_collector.cpp:163-177 addGeoLevel *)
Definition add_geo_level (c : collector F) (g : geolevel F) : res (collector F) :=
  l <- local_level g ;;
  let ls := col_levels c ++ [l] in
  Ok (mkCol ls (ainsert (gl_id g) (List.length ls - 1)%nat (col_index c))).

Definition add_geo_levels (c : collector F) (gs : list (geolevel F)) : res (collector F) :=
  fold_left (fun acc g => c <- acc ;; add_geo_level c g) gs (Ok c).

(** level_collector.cpp:144-147 hasLevel *)
Definition has_level (c : collector F) (id : string) : bool := amem id (col_index c).
(** level_collector.cpp:149-152 level: throws when absent *)
Definition get_level (c : collector F) (id : string) : res (level F) :=
  i <- at_or_throw (alookup id (col_index c)) ;; at_or_throw (nth_error (col_levels c) i).
(** level_collector.cpp:126-137 findLevelByTransmitterId *)
Definition find_level_by_tx (c : collector F) (tx : string) : option string :=
  match find (fun l => contains_tx l tx) (col_levels c) with
  | Some l => Some (l_id l)
  | None => None
  end.
End Level.

(** level_geometry.cpp:25-44 isPathTouchesBarriers.  The Boost predicates are
    parameters: [in_outer] covered_by(path, polygon.outer()), [hit_box]
    intersects(path, box), [hit_ring] intersects(path, ring), [envelope] the
    bounding box of a ring.  Querying the R-tree is filtering the stored boxes;
    the order of the result does not matter. *)
Section Barriers.
Context {Path Poly Ring Bx : Type}.
Context (outer_covers : Path -> Poly -> bool) (inners : Poly -> list Ring)
        (envelope : Ring -> Bx) (hit_box : Path -> Bx -> bool) (hit_ring : Path -> Ring -> bool).

(** level_geometry.cpp:12-22 mInnerBarriers and the R-tree entries *)
Definition inner_barriers (area : list Poly) : list Ring := flat_map inners area.
Fixpoint number {A : Type} (i : nat) (l : list A) : list (A * nat) :=
  match l with [] => [] | x :: t => (x, i) :: number (S i) t end.
Definition box_indices (area : list Poly) : list (Bx * nat) :=
  map (fun ri => (envelope (fst ri), snd ri)) (number 0 (inner_barriers area)).

Definition path_touches_barriers (area : list Poly) (path : Path) : bool :=
  let inside := fold_left (fun acc z => if outer_covers path z then true else acc) area false in
  if negb inside then true
  else
    existsb (fun bi => match nth_error (inner_barriers area) (snd bi) with
                       | Some r => hit_ring path r
                       | None => false   (* unreachable: indices come from the same vector *)
                       end)
      (filter (fun bi => hit_box path (fst bi)) (box_indices area)).
End Barriers.
