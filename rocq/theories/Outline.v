(** The outline of a level: the bounding box and the allowed area made from the
    polygons of a map file.  Models src/barriers_geometry_builder.cpp and
    src/level_collector.cpp:47-92.  Boost.Geometry is not part of the
    repository; its correct, envelope and covered_by are written down here for
    cartesian points, with exact comparisons (Boost compares with a tolerance of
    one unit in the last place). *)
From Verif Require Export JsonDoc.
Set Implicit Arguments.
Local Open Scope list_scope.

Section Outline.
Context {F : Type} {NF : Num F}.

Definition ring := list (XY F).
(** a polygon of plane points *)
Record shape := mkShape { sh_outer : ring; sh_inners : list ring }.

Definition same_xy (p q : XY F) : bool := (px p =! px q) && (py p =! py q).

(** correct(Ring), first part: a ring of more than two points is closed *)
Definition close_ring (r : ring) : ring :=
  match r with
  | a :: _ :: _ :: _ => if same_xy a (last r a) then r else r ++ [a]
  | _ => r
  end.
(** area(Ring): positive for a clockwise ring, 0 for fewer than four points *)
Fixpoint twice_area (r : ring) : F :=
  match r with
  | a :: ((b :: _) as t) => (px a +! px b) *! (py a -! py b) +! twice_area t
  | _ => f0
  end.
Definition ring_area (r : ring) : F := if (List.length r <? 4)%nat then f0 else twice_area r /! fofZ 2.
(** correct(Ring), second part: an outer ring is made clockwise, an inner ring
    counter-clockwise *)
Definition correct_outer (r : ring) : ring :=
  let r := close_ring r in if ring_area r <! f0 then rev r else r.
Definition correct_inner (r : ring) : ring :=
  let r := close_ring r in if f0 <! ring_area r then rev r else r.
Definition correct_shape (s : shape) : shape :=
  mkShape (correct_outer (sh_outer s)) (map correct_inner (sh_inners s)).

(** expand(Box, Point) *)
Definition expand (b : box F) (p : XY F) : box F :=
  mkBox (mkXY (if px p <! px (bmin b) then px p else px (bmin b)) (if py p <! py (bmin b) then py p else py (bmin b)))
        (mkXY (if px (bmax b) <! px p then px p else px (bmax b)) (if py (bmax b) <! py p then py p else py (bmax b))).
(** envelope(Range): None for an empty range *)
Definition env_ring (r : ring) : option (box F) :=
  match r with [] => None | p :: t => Some (fold_left expand t (mkBox p p)) end.
Definition env_join (a b : option (box F)) : option (box F) :=
  match a, b with
  | Some a, Some b => Some (expand (expand a (bmin b)) (bmax b))
  | None, b => b
  | a, None => a
  end.
(** envelope(Polygon): the inner rings count only when the outer one is empty *)
Definition env_shape (s : shape) : option (box F) :=
  match sh_outer s with
  | [] => fold_left (fun a r => env_join a (env_ring r)) (sh_inners s) None
  | r => env_ring r
  end.
(** return_envelope<Box>(Multipolygon): the inverted box when there is no point *)
Definition envelope (a : list shape) : box F :=
  match fold_left (fun b s => env_join b (env_shape s)) a None with
  | Some b => b
  | None => mkBox (mkXY fdblmax fdblmax) (mkXY (fopp fdblmax) (fopp fdblmax))
  end.

(** helpers.cpp:588-590: a point of a polygon has the latitude in x *)
Definition shape_of (p : poly F) : shape :=
  mkShape (map (fun g => mkXY (lat g) (lon g)) (py_outer p)) (map (map (fun g => mkXY (lat g) (lon g))) (py_inners p)).

(** barriers_geometry_builder.cpp:13-24 getGeometry *)
Definition get_geometry (ps : list (poly F)) : list shape * box F :=
  let area := map (fun p => correct_shape (shape_of p)) ps in (area, envelope area).

(** level_collector.cpp:47-68 getPolygonInLocalCoordinates *)
Definition local_ring (b : Geo F) (r : ring) : ring := map (fun p => gps_to_local (mkGeo (px p) (py p)) b) r.
Definition local_shape (b : Geo F) (s : shape) : shape :=
  correct_shape (mkShape (local_ring b (sh_outer s)) (map (local_ring b) (sh_inners s))).
(** level_collector.cpp:77-87 the area of getGeometryInLocalCoordinates, with
    the binding of lines 154-161 *)
Definition local_area (area : list shape) (bx : box F) : list shape :=
  let c := correct_box bx in
  let b := mkGeo (px (bmin c)) (py (bmin c)) in
  map correct_shape (map (local_shape b) area).

(** covered_by(Point, Ring), the winding strategy.  The side of a point at the
    level of one end of a segment and of a point between the two *)
Definition side_equal (p e : XY F) (c : Z) : Z :=
  if py p =! py e then 0%Z else if py p <! py e then (- c)%Z else c.
Definition side_of (a b p : XY F) : Z :=
  let d := (px b -! px a) *! (py p -! py a) -! (py b -! py a) *! (px p -! px a) in
  if d =! f0 then 0%Z else if f0 <! d then 1%Z else (-1)%Z.
(** 2 or 1 eastwards, -2 or -1 westwards *)
Definition seg_count (p a b : XY F) : Z :=
  if px a =! px p then (if px p <! px b then 1 else -1)%Z
  else if px b =! px p then (if px p <! px a then -1 else 1)%Z
  else if (px a <! px p) && (px p <! px b) then 2%Z
  else if (px b <! px p) && (px p <! px a) then (-2)%Z else 0%Z.
(** None: the point is on the ring *)
Fixpoint winding (p : XY F) (r : ring) (n : Z) : option Z :=
  match r with
  | a :: ((b :: _) as t) =>
      if (px a =! px p) && (px b =! px p)
      then if ((py a <=! py p) && (py p <=! py b)) || ((py b <=! py p) && (py p <=! py a)) then None else winding p t n
      else
        let c := seg_count p a b in
        if (c =? 0)%Z then winding p t n
        else
          let s := if (Z.abs c =? 1)%Z then side_equal p (if px a =! px p then a else b) c else side_of a b p in
          if (s =? 0)%Z then None else winding p t (if (0 <? s * c)%Z then n + c else n)%Z
  | _ => Some n
  end.
(** 1 inside, 0 on the ring, -1 outside *)
Definition ring_code (p : XY F) (r : ring) : Z :=
  if (List.length r <? 4)%nat then (-1)%Z
  else match winding p r 0 with None => 0 | Some n => if n =? 0 then -1 else 1 end%Z.
(** covered_by(Point, Polygon) *)
Definition shape_code (p : XY F) (s : shape) : Z :=
  let c := ring_code p (sh_outer s) in
  if (c =? 1)%Z
  then match find (fun k => negb (k =? -1)%Z) (map (ring_code p) (sh_inners s)) with
       | Some k => (- k)%Z
       | None => c
       end
  else c.
(** covered_by(Point, Multipolygon) *)
Definition covered_by_area (p : XY F) (a : list shape) : bool := existsb (fun s => negb (shape_code p s =? -1)%Z) a.

(** the bounding box and the covered_by predicate of a level with the polygons
    [ps]: the value for [geom] of [parse_geojson] *)
Definition level_geom (ps : list (poly F)) : box F * (F -> F -> bool) :=
  let '(area, bx) := get_geometry ps in
  let loc := local_area area bx in
  (bx, fun x y => covered_by_area (mkXY x y) loc).
End Outline.
Arguments ring F : clear implicits.
Arguments shape F : clear implicits.
