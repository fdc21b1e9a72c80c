(** C39-C43: projection, geometry, conversion, levels and barriers. *)
From Coq Require Import Reals Lra.
From Verif Require Import Lib NumReal NumFloat LibR SortInst LevelModel Postproc Spec_Post Spec_Geo Pf_Geo Ex.
Local Open Scope string_scope.
Local Open Scope list_scope.
#[local] Existing Instance nf.

(** ** C39: projection to the graph *)
Theorem C39_nearest (g : graph (XY RX)) vs p : real_graph g vs ->
  (g_edges g = [] /\ graph_projection g (rx_pt p) = Ok (rx_pt p)) \/
  exists q, graph_projection g (rx_pt p) = Ok (rx_pt q) /\
    (exists u v k, edge_of g vs u v /\ (0 <= k <= 1)%R /\ q = along u v k) /\
    (forall u v k, edge_of g vs u v -> (0 <= k <= 1)%R -> (eps < len2 u v)%R -> (pdist p q <= pdist p (along u v k))%R) /\
    (forall u v k, edge_of g vs u v -> (0 <= k <= 1)%R -> (pdist p q <= pdist p (along u v k) + 1 / 10000)%R).
Proof. exact (@projection_nearest g vs p). Qed.
Print Assumptions C39_nearest.

Theorem C39_applied_if_near (s : settings RX) (l : level RX) vs (p : position RX) x y gd : real_graph (l_graph l) vs ->
  p_x p = Some x -> p_y p = Some y -> s_graphdist s = Some gd -> s_graphproj s = true ->
  exists q, graph_projection (l_graph l) (rx_pt (x, y)) = Ok (rx_pt q) /\
    project s l p = Ok (if Rltb (pdist (x, y) q) gd then pos_set_xy p (Some (fst q)) (Some (snd q)) else p).
Proof. exact (@project_near s l vs p x y gd). Qed.
Print Assumptions C39_applied_if_near.

(** graphs made with addVertex and addEdge qualify *)
Theorem C39_built (g : graph (XY RX)) vs : graph_built g -> map snd (g_verts g) = map rx_pt vs -> real_graph g vs.
Proof. exact (@built_real g vs). Qed.
Print Assumptions C39_built.

(** an edge shorter than 0.1 mm is represented by its first end point, so the minimum is missed *)
Theorem C39_short_edge_refuted : exists (g : graph (XY RX)) vs p u v q,
  real_graph g vs /\ edge_of g vs u v /\ graph_projection g (rx_pt p) = Ok (rx_pt q) /\ (pdist p v < pdist p q)%R.
Proof.
  set (u := (0, 0)%R). set (v := (1 / 20000, 0)%R).
  exists (mkGraph [(0%Z, rx_pt u); (1%Z, rx_pt v)] [(0%Z, 1%Z)]), [u; v], v, u, v, u.
  split; [split; [reflexivity|]; intros e [<-|[]]; split; reflexivity|].
  split; [exists 0%Z, 1%Z; cbn; auto|]. split.
  - transitivity (Ok (proj_edge (rx_pt u) (rx_pt v) (rx_pt v))); [reflexivity|]. rewrite proj_edge_real.
    rewrite (proj2 (Rltb_false eps (len2 u v))); [reflexivity|]. unfold len2, eps, u, v; cbn [fst snd]. lra.
  - rewrite !pdist_sq. apply sqrt_lt_1; try apply sq_pos. unfold sq, u, v; cbn [fst snd]. lra.
Qed.
Print Assumptions C39_short_edge_refuted.

Definition ex_g : graph (XY SF) :=
  mkGraph [(0%Z, mkXY f0 f0); (1%Z, mkXY (fofZ 10) f0); (2%Z, mkXY (fofZ 10) (fofZ 10))] [(0, 1); (1, 2)]%Z.
Example C39_example : graph_projection ex_g (mkXY (fofZ 4) (fofZ 3)) = Ok (mkXY (fofZ 4) f0) /\
  graph_projection ex_g (mkXY (fofZ 12) (fofZ 12)) = Ok (mkXY (fofZ 10) (fofZ 10)).
Proof. split; vm_compute; reflexivity. Qed.
Example C39_example_graph : exists (g : graph (XY RX)) vs u v, real_graph g vs /\ edge_of g vs u v /\ (eps < len2 u v)%R.
Proof.
  exists (mkGraph [(0%Z, rx_pt (0, 0)%R); (1%Z, rx_pt (1, 0)%R)] [(0%Z, 1%Z)]), [(0, 0)%R; (1, 0)%R], (0, 0)%R, (1, 0)%R.
  split; [split; [reflexivity|]; intros e [<-|[]]; split; reflexivity|]. split; [exists 0%Z, 1%Z; cbn; auto|].
  unfold len2, eps; cbn [fst snd]. lra.
Qed.

(** ** C40: segment predicates *)
Theorem C40_segment_distance (a b p : pt) : exists d, segment_point_dist (rx_pt a) (rx_pt b) (rx_pt p) = Some d /\
  (exists k, (0 <= k <= 1)%R /\ d = pdist p (along a b k)) /\
  (forall k, (0 <= k <= 1)%R -> (d <= pdist p (along a b k) + 1 / 10000)%R) /\
  ((eps <= len2 a b)%R -> forall k, (0 <= k <= 1)%R -> (d <= pdist p (along a b k))%R).
Proof. exact (segment_dist a b p). Qed.
Print Assumptions C40_segment_distance.

Theorem C40_intersection (p q a b : pt) :
  ((Rabs (dirdet p q a b) < eps)%R -> gi p q a b = (None, None)) /\
  ((eps <= Rabs (dirdet p q a b))%R ->
    (forall k l, (0 <= k <= 1)%R -> (0 <= l <= 1)%R -> along p q k = along a b l -> gi p q a b = (Some k, Some (rx_pt (along p q k)))) /\
    (gi p q a b = (None, None) \/
     exists k l, (0 <= k <= 1)%R /\ (0 <= l <= 1)%R /\ along p q k = along a b l /\ gi p q a b = (Some k, Some (rx_pt (along p q k))))).
Proof. exact (intersection_exact p q a b). Qed.
Print Assumptions C40_intersection.

Theorem C40_check (a b c d : pt) : ci a b c d = true <-> cross_properly a b c d /\ oblique a b /\ oblique c d.
Proof. exact (check_exact a b c d). Qed.
Print Assumptions C40_check.

Theorem C40_check_symmetric (a b c d : pt) : ci a b c d = ci c d a b /\ ci a b c d = ci b a c d.
Proof. exact (check_symmetric a b c d). Qed.
Print Assumptions C40_check_symmetric.

(** segments parallel to an axis are never reported as crossing *)
Theorem C40_axis_parallel_refuted : exists a b c d : pt, cross_properly a b c d /\ ci a b c d = false.
Proof.
  exists (-1, 0)%R, (1, 0)%R, (0, -1)%R, (0, 1)%R. split.
  - split; [unfold dirdet; cbn [fst snd]; lra|]. exists (1 / 2)%R, (1 / 2)%R. split; [lra|]. split; [lra|]. unfold along; cbn [fst snd]. f_equal; lra.
  - destruct (ci _ _ _ _) eqn:E; [|reflexivity]. apply check_exact in E. destruct E as (_ & (_ & H) & _). cbn in H. lra.
Qed.
Print Assumptions C40_axis_parallel_refuted.

Example C40_example : check_intersection f0 f0 (fofZ 2) (fofZ 2) f0 (fofZ 2) (fofZ 2) f0 = true /\
  check_intersection f0 f0 (fofZ 1) (fofZ 1) (fofZ 2) f0 (fofZ 3) (fofZ 1) = false /\
  check_intersection (fofZ (-1)) f0 (fofZ 1) f0 f0 (fofZ (-1)) f0 (fofZ 1) = false /\
  get_intersection (fofZ (-1)) f0 (fofZ 1) f0 f0 (fofZ (-1)) f0 (fofZ 1) = (lit 1 2, Some (mkXY f0 f0)) /\
  segment_point_dist (mkXY f0 f0) (mkXY (fofZ 10) f0) (mkXY (fofZ 5) (fofZ 3)) = fofZ 3.
Proof. repeat split; vm_compute; reflexivity. Qed.

(** ** C41: geographic conversion *)
Theorem C41_gps_round_trip (p b : pt) : circ_at b <> 0%R -> lon_range (snd p) -> lon_range (snd b) ->
  local_to_gps (gps_to_local (rx_geo p) (rx_geo b)) (rx_geo b) = rx_geo p.
Proof. exact (@gps_roundtrip p b). Qed.
Print Assumptions C41_gps_round_trip.

Theorem C41_local_round_trip (q b : pt) : circ_at b <> 0%R -> lon_range (snd b) -> lon_range (fst q * 360 / circ_at b)%R ->
  gps_to_local (local_to_gps (rx_pt q) (rx_geo b)) (rx_geo b) = rx_pt q.
Proof. exact (@local_roundtrip q b). Qed.
Print Assumptions C41_local_round_trip.

Theorem C41_normalize l : exists r, normalize_longitude (Some l : RX) = Some r /\
  congruent l r /\ (near_range l <-> lon_range r) /\ (lon_range l -> r = l).
Proof. exact (normalize_exact l). Qed.
Print Assumptions C41_normalize.

Theorem C41_not_pole b : (-90 < fst b < 90)%R -> circ_at b <> 0%R.
Proof. exact (@circ_nonzero b). Qed.
Print Assumptions C41_not_pole.

Example C41_example : normalize_longitude (fofZ 190 : SF) = fofZ (-170) /\ normalize_longitude (fofZ (-180) : SF) = fofZ 180 /\
  normalize_longitude (fofZ 600 : SF) = fofZ 240.
Proof. repeat split; vm_compute; reflexivity. Qed.
Example C41_example_range : circ_at (0, 179)%R <> 0%R /\ lon_range (-179) /\ lon_range 179 /\ lon_range (1000 * 360 / circ_at (0, 179)).
Proof.
  split; [apply circ_nonzero; cbn; lra|]. unfold lon_range, circ_at. cbn [fst]. replace (0 * PI / 180)%R with 0%R by lra. rewrite cos_0. lra.
Qed.

(** ** C42: level collector and graphs *)
Theorem C42_collector {F} {NF : Num F} (gs : list (geolevel F)) c : add_geo_levels col0 gs = Ok c ->
  Forall2 (fun g l => local_level g = Ok l) gs (col_levels c) /\
  (forall id, (exists g l, first_with (fun g => gl_id g = id) gs g /\ local_level g = Ok l /\ has_level c id = true /\ get_level c id = Ok l) \/
     ((forall g, In g gs -> gl_id g <> id) /\ has_level c id = false /\ get_level c id = Throw)) /\
  (forall tx, (exists g, first_with (fun g => In tx (map (@gt_id F) (gl_txs g))) gs g /\ find_level_by_tx c tx = Some (gl_id g)) \/
     ((forall g, In g gs -> ~ In tx (map (@gt_id F) (gl_txs g))) /\ find_level_by_tx c tx = None)).
Proof. exact (@collector_exact F NF gs c). Qed.
Print Assumptions C42_collector.

Theorem C42_never_throws {F} {NF : Num F} (gs : list (geolevel F)) :
  Forall (fun g => graph_built (gl_graph g)) gs -> exists c, add_geo_levels col0 gs = Ok c.
Proof. exact (@collector_total F NF gs). Qed.
Print Assumptions C42_never_throws.

Theorem C42_transmitters {F} {NF : Num F} g (l : level F) tx : local_level g = Ok l ->
  (exists t, first_with (fun t => gt_id t = tx) (gl_txs g) t /\ contains_tx l tx = true /\ get_tx l tx = Ok (local_tx (get_binding g) (gl_alt g) t)) \/
  ((forall t, In t (gl_txs g) -> gt_id t <> tx) /\ contains_tx l tx = false /\ get_tx l tx = Throw).
Proof. exact (@transmitter_exact F NF g l tx). Qed.
Print Assumptions C42_transmitters.

Theorem C42_reference_points {F} (rps : list (refpoint F)) rid :
  (exists r, first_with (fun r => rp_id r = rid) rps r /\ has_rp (mk_radiomap rps) rid = true /\ get_rp (mk_radiomap rps) rid = Ok r) \/
  ((forall r, In r rps -> rp_id r <> rid) /\ has_rp (mk_radiomap rps) rid = false /\ get_rp (mk_radiomap rps) rid = Throw).
Proof. exact (@refpoint_exact F rps rid). Qed.
Print Assumptions C42_reference_points.

Theorem C42_graph_preserved {F} {NF : Num F} (b : Geo F) (g : graph (Geo F)) : graph_built g ->
  local_graph b g = Ok (mkGraph (map (fun v => (fst v, gps_to_local (snd v) b)) (g_verts g)) (g_edges g)).
Proof. exact (@local_graph_exact F NF b g). Qed.
Print Assumptions C42_graph_preserved.

Theorem C42_edges {P : Type} (g : graph P) l : edges_added g l ->
  NoDup (g_edges g) /\ forall u v, In (u, v) (g_edges g) <-> (u <= v)%Z /\ (In (u, v) l \/ In (v, u) l).
Proof. exact (@edges_exact P g l). Qed.
Print Assumptions C42_edges.

Definition ex_gg : graph nat := add_vertex (add_vertex (add_vertex graph0 7%nat) 8%nat) 9%nat.
Example C42_example_graph : exists g1 g2 g3, add_edge ex_gg 2 0 = Ok g1 /\ add_edge g1 0 2 = Ok g2 /\ add_edge g2 1 0 = Ok g3 /\
  graph_built g3 /\ edges_added g3 [(1, 0); (0, 2); (2, 0)]%Z /\ g_edges g3 = [(0, 1); (0, 2)]%Z /\ add_edge ex_gg 3 0 = Throw.
Proof.
  set (h := fun es => mkGraph (g_verts ex_gg) es). exists (h [(0, 2)]%Z), (h [(0, 2)]%Z), (h [(0, 1); (0, 2)]%Z).
  assert (E1 : add_edge ex_gg 2 0 = Ok (h [(0, 2)]%Z)) by reflexivity.
  assert (E2 : add_edge (h [(0, 2)]%Z) 0 2 = Ok (h [(0, 2)]%Z)) by reflexivity.
  assert (E3 : add_edge (h [(0, 2)]%Z) 1 0 = Ok (h [(0, 1); (0, 2)]%Z)) by reflexivity.
  split; [exact E1|]. split; [exact E2|]. split; [exact E3|]. split; [|split; [|split; reflexivity]].
  - eapply GBe; [|exact E3]. eapply GBe; [|exact E2]. eapply GBe; [|exact E1]. repeat apply GBv. apply GB0.
  - eapply EAe; [|exact E3]. eapply EAe; [|exact E2]. eapply EAe; [|exact E1]. repeat apply EAv. apply EA0.
Qed.

(** two levels with the same id: the first one answers *)
Example C42_example : match add_geo_levels col0 [ex_gl "A" [] []; ex_gl "B" [] []; ex_gl "A" [] []] with
  | Ok c => has_level (c : collector SF) "A" = true /\ has_level c "C" = false /\ alookup "A" (col_index c) = Some 0%nat /\ List.length (col_levels c) = 3%nat
  | _ => False end.
Proof. vm_compute. repeat split; reflexivity. Qed.
Example C42_example_built : Forall (fun g => graph_built (gl_graph (g : geolevel SF))) [ex_gl "A" [] []; ex_gl "B" [] []].
Proof. repeat constructor. Qed.

(** ** C43: barriers *)
Theorem C43_barriers {Path Poly Ring Bx : Type} (outer_covers : Path -> Poly -> bool) (inners : Poly -> list Ring)
    (envelope : Ring -> Bx) (hit_box : Path -> Bx -> bool) (hit_ring : Path -> Ring -> bool) area path :
  (forall z r, In z area -> In r (inners z) -> hit_ring path r = true -> hit_box path (envelope r) = true) ->
  (path_touches_barriers outer_covers inners envelope hit_box hit_ring area path = true <->
   (forall z, In z area -> outer_covers path z = false) \/ exists z r, In z area /\ In r (inners z) /\ hit_ring path r = true).
Proof. exact (@barriers_exact Path Poly Ring Bx outer_covers inners envelope hit_box hit_ring area path). Qed.
Print Assumptions C43_barriers.

(** with the predicates deciding meetings of point sets, and envelopes covering the rings *)
Theorem C43_point_sets {Path Poly Ring : Type} (outer_covers : Path -> Poly -> bool) (inners : Poly -> list Ring)
    (envelope : Ring -> pt * pt) (hit_box : Path -> pt * pt -> bool) (hit_ring : Path -> Ring -> bool)
    (on_path : Path -> pt -> Prop) (in_ring : Ring -> pt -> Prop) :
  (forall r p, in_ring r p -> in_rbox (envelope r) p) ->
  (forall w r, hit_ring w r = true <-> exists p, on_path w p /\ in_ring r p) ->
  (forall w b, hit_box w b = true <-> exists p, on_path w p /\ in_rbox b p) ->
  forall area path, path_touches_barriers outer_covers inners envelope hit_box hit_ring area path = true <->
   (forall z, In z area -> outer_covers path z = false) \/
   exists z r p, In z area /\ In r (inners z) /\ on_path path p /\ in_ring r p.
Proof. exact (@barriers_sets Path Poly Ring outer_covers inners envelope hit_box hit_ring on_path in_ring). Qed.
Print Assumptions C43_point_sets.

(** integer points as paths, intervals as rings: the prefilter is sound and all three verdicts occur *)
Example C43_example :
  let covers := fun (p : Z) (z : (Z * Z) * list (Z * Z)) => (fst (fst z) <=? p)%Z && (p <=? snd (fst z))%Z in
  let hit := fun (p : Z) (r : Z * Z) => (fst r <=? p)%Z && (p <=? snd r)%Z in
  let area := [((0, 10), [(2, 3); (5, 6)]); ((20, 30), [])]%Z in
  let touches := path_touches_barriers covers snd (fun r => r) hit hit area in
  (forall p z r, In z area -> In r (snd z) -> hit p r = true -> hit p r = true) /\
  map touches [4; 5; 15; 25]%Z = [false; true; true; false].
Proof. cbn zeta. split; [auto|vm_compute; reflexivity]. Qed.
