(** Planar geometry and geographic conversion.
    Models src/geometry.cpp, src/geometry.h and src/point.cpp. *)
From Verif Require Export Types.
Set Implicit Arguments.

Section Geo.
Context {F : Type} {NF : Num F}.

(** geometry.h:15 GEOMETRY_DOUBLE_EPSILON = 1e-8 *)
Definition geps : F := lit 1 100000000.

(** geometry.cpp:8-11 GetDist *)
Definition get_dist (ax ay bx by_ : F) : F :=
  fsqrt ((ax -! bx) *! (ax -! bx) +! (ay -! by_) *! (ay -! by_)).

(** geometry.cpp:14-17 GetDist(LocationPoint, LocationPoint); a location point
    is a level id with coordinates *)
Definition get_dist_lp (a b : string * XY F) : F :=
  if String.eqb (fst a) (fst b)
  then get_dist (px (snd a)) (py (snd a)) (px (snd b)) (py (snd b)) else fnan.

(** geometry.cpp:20-41 SegmentPointDist *)
Definition segment_point_dist (p1 p2 p : XY F) : F :=
  let v1x := px p -! px p1 in
  let v1y := py p -! py p1 in
  let v2x := px p2 -! px p1 in
  let v2y := py p2 -! py p1 in
  let len := v2x *! v2x +! v2y *! v2y in
  if len <! geps then get_dist (px p1) (py p1) (px p) (py p)
  else
    let t := (v1x *! v2x +! v1y *! v2y) /! len in
    let t := fmin (fmax t f0) f1 in
    let sx := px p1 +! t *! (px p2 -! px p1) in
    let sy := py p1 +! t *! (py p2 -! py p1) in
    fsqrt ((sx -! px p) *! (sx -! px p) +! (sy -! py p) *! (sy -! py p)).

(** geometry.cpp:44-51 GetDist from C to line AB *)
Definition line_dist (a b c : string * XY F) : F :=
  if negb (String.eqb (fst a) (fst b)) || negb (String.eqb (fst a) (fst c)) then fnan
  else
    let d := get_dist_lp a b in
    let '(a, b, c) := (snd a, snd b, snd c) in
    if geps <=! d
    then fabs ((px b -! px a) *! (py c -! py a) -! (px c -! px a) *! (py b -! py a)) /! d
    else fnan.

(** geometry.cpp:74-78 Determinant (2x2) *)
Definition det2 (a11 a12 a21 a22 : F) : F := a11 *! a22 -! a12 *! a21.

(** geometry.cpp:84-90 Determinant (3x3) *)
Definition det3 (a11 a12 a13 a21 a22 a23 a31 a32 a33 : F) : F :=
  (a11 *! a22 *! a33 +! a12 *! a23 *! a31 +! a21 *! a32 *! a13) -!
  (a21 *! a12 *! a33 +! a11 *! a23 *! a32 +! a13 *! a22 *! a31).

(** geometry.cpp:64-69 GetArea *)
Definition get_area (ax ay bx by_ cx cy : F) : F :=
  det2 (ax -! bx) (ay -! by_) (ax -! cx) (ay -! cy) /! fofZ 2.

(** geometry.cpp:93-108 GetProjection: returns k and the point *)
Definition get_projection (ax ay bx by_ ox oy : F) : F * XY F :=
  let ab := (bx -! ax) *! (bx -! ax) +! (by_ -! ay) *! (by_ -! ay) in
  let ao := (ox -! ax) *! (bx -! ax) +! (oy -! ay) *! (by_ -! ay) in
  let k := if geps <! ab then ao /! ab else f0 in
  (k, mkXY (ax +! k *! (bx -! ax)) (ay +! k *! (by_ -! ay))).

(** geometry.cpp:110-136 GetIntersection: NAN is the "no intersection" result,
    in which case the output point is left untouched *)
Definition get_intersection (px_ py_ qx qy ax ay bx by_ : F) : F * option (XY F) :=
  let pqx := qx -! px_ in
  let pqy := qy -! py_ in
  let abx := bx -! ax in
  let aby := by_ -! ay in
  let pax := ax -! px_ in
  let pay := ay -! py_ in
  let det := det2 pqx abx pqy aby in
  if fabs det <! geps then (fnan, None)
  else
    let k := det2 pax abx pay aby /! det in
    let l := fopp (det2 pqx pax pqy pay) /! det in
    if (k <! f0) || (f1 <! k) || (l <! f0) || (f1 <! l) then (fnan, None)
    else (k, Some (mkXY (px_ +! k *! pqx) (py_ +! k *! pqy))).

(** geometry.cpp:144-149 boundBoxCheck *)
Definition bound_box_check (a b c d : F) : bool :=
  let '(a, b) := if b <! a then (b, a) else (a, b) in
  let '(c, d) := if d <! c then (d, c) else (c, d) in
  fmax a c <! fmin b d.

(** geometry.cpp:139-154 CheckIntersection *)
Definition check_intersection (ax ay bx by_ cx cy dx dy : F) : bool :=
  bound_box_check ax bx cx dx && bound_box_check ay by_ cy dy &&
  ((get_area ax ay bx by_ cx cy *! get_area ax ay bx by_ dx dy) <! f0) &&
  ((get_area cx cy dx dy ax ay *! get_area cx cy dx dy bx by_) <! f0).

(** geometry.cpp:156-165 PointOnLine *)
Definition point_on_line (x y x1 y1 x2 y2 : F) : bool :=
  let ax := x1 -! x in
  let ay := y1 -! y in
  let bx := x2 -! x in
  let by_ := y2 -! y in
  (fabs (ax *! by_ -! ay *! bx) <! geps) && ((ax *! bx +! ay *! by_) <! geps).

(** geometry.cpp:167-184 XRayIntersectsLine *)
Definition xray_intersects_line (x y x1 y1 x2 y2 : F) : bool :=
  let delta := fsqrt geps in
  let y1 := if fabs (y -! y1) <! geps then y1 +! delta else y1 in
  let y2 := if fabs (y -! y2) <! geps then y2 +! delta else y2 in
  if (y1 <! y) && (y <! y2)
  then f0 <! (det3 x2 y2 f1 x y f1 x1 y1 f1 +! geps)
  else if (y2 <! y) && (y <! y1)
  then f0 <! (det3 x1 y1 f1 x y f1 x2 y2 f1 +! geps)
  else false.

(** point.cpp:13-14 *)
Definition equator_m : F := fofZ 40075160.
Definition pole_m : F := fofZ 40008000.

(** point.cpp:17-27 normalizeLongitude *)
Definition normalize_longitude (l : F) : F :=
  if fofZ 180 <! l then l -! fofZ 360
  else if l <=! fofZ (-180) then l +! fofZ 360
  else l.

(** point.cpp:29-32 degToRad *)
Definition deg_to_rad (d : F) : F := d *! fpi /! fofZ 180.

(** point.cpp:34-45 gpsToLocal *)
Definition gps_to_local (p b : Geo F) : XY F :=
  let dlat := lat p -! lat b in
  let dlon := normalize_longitude (lon p -! lon b) in
  let circ := equator_m *! fcos (deg_to_rad (lat b)) in
  mkXY (dlon *! (circ /! fofZ 360)) (dlat *! (pole_m /! fofZ 360)).

(** point.cpp:47-53 localToGps *)
Definition local_to_gps (p : XY F) (b : Geo F) : Geo F :=
  let circ := equator_m *! fcos (deg_to_rad (lat b)) in
  mkGeo (py p *! (fofZ 360 /! pole_m) +! lat b)
        (normalize_longitude (px p *! fofZ 360 /! circ +! lon b)).

(** boost::geometry::covered_by(Point, Box) *)
Definition covered_by_box (x y : F) (b : box F) : bool :=
  (px (bmin b) <=! x) && (x <=! px (bmax b)) && (py (bmin b) <=! y) && (y <=! py (bmax b)).

(** boost::geometry::correct(Box): swaps each coordinate where min > max *)
Definition correct_box (b : box F) : box F :=
  let sx := px (bmax b) <! px (bmin b) in
  let sy := py (bmax b) <! py (bmin b) in
  mkBox (mkXY (if sx then px (bmax b) else px (bmin b)) (if sy then py (bmax b) else py (bmin b)))
        (mkXY (if sx then px (bmin b) else px (bmax b)) (if sy then py (bmin b) else py (bmax b))).

End Geo.
