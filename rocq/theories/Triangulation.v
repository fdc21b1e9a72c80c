(** Delaunay-style triangulation of reference points.
    Models src/triangulation.{h,cpp} and triangulate() of knn_utils.cpp. *)
From Verif Require Export Knn.
Set Implicit Arguments.

Section Tri.
Context {F : Type} {NF : Num F} {SO : Sorter}.

(** triangulation.h:14-29 TriangleVertex *)
Record tvert := mkTV { tv_x : F; tv_y : F; tv_id : string }.
Definition tv_eqb (a b : tvert) : bool := String.eqb (tv_id a) (tv_id b).
Definition tv_ltb (a b : tvert) : bool :=
  (tv_x a <! tv_x b) || ((tv_x a =! tv_x b) && (tv_y a <! tv_y b)).

(** triangulation.h:31-54 TriangleEdge *)
Record tedge := mkTE { te_b : tvert; te_e : tvert }.
Definition mk_edge (a b : tvert) : tedge :=
  mkTE (if tv_ltb b a then b else a) (if tv_ltb a b then b else a).
Definition te_len (e : tedge) : F :=
  fsqrt ((tv_x (te_b e) -! tv_x (te_e e)) *! (tv_x (te_b e) -! tv_x (te_e e)) +!
         (tv_y (te_b e) -! tv_y (te_e e)) *! (tv_y (te_b e) -! tv_y (te_e e))).
Definition te_eqb (a b : tedge) : bool := tv_eqb (te_b a) (te_b b) && tv_eqb (te_e a) (te_e b).
Definition te_ltb (a b : tedge) : bool :=
  tv_ltb (te_b a) (te_b b) || (tv_eqb (te_b a) (te_b b) && tv_ltb (te_e a) (te_e b)).

(** triangulation.h:56-120 Triangle *)
Record triangle := mkT { ta : tvert; tb : tvert; tc : tvert }.
Definition t_ab (t : triangle) := mk_edge (ta t) (tb t).
Definition t_bc (t : triangle) := mk_edge (tb t) (tc t).
Definition t_ac (t : triangle) := mk_edge (ta t) (tc t).
Definition t_ltb (s t : triangle) : bool :=
  tv_ltb (ta s) (ta t) || (tv_eqb (ta s) (ta t) && tv_ltb (tb s) (tb t))
  || (tv_eqb (ta s) (ta t) && tv_eqb (tb s) (tb t) && tv_ltb (tc s) (tc t)).

(** triangulation.h:85-103 square, sinA, sinB, sinC *)
Definition t_square (t : triangle) : F :=
  lit 5 10 *! fabs (det3 (tv_x (ta t)) (tv_x (tb t)) (tv_x (tc t))
                         (tv_y (ta t)) (tv_y (tb t)) (tv_y (tc t)) f1 f1 f1).
Definition sin_a (t : triangle) : F := fofZ 2 *! t_square t /! (te_len (t_ac t) *! te_len (t_ab t)).
Definition sin_b (t : triangle) : F := fofZ 2 *! t_square t /! (te_len (t_bc t) *! te_len (t_ab t)).
Definition sin_c (t : triangle) : F := fofZ 2 *! t_square t /! (te_len (t_bc t) *! te_len (t_ac t)).

(** triangulation.h:105-114 circumcircle_contains *)
Definition circum_contains (t : triangle) (v : tvert) : bool :=
  if tv_eqb v (ta t) || tv_eqb v (tb t) || tv_eqb v (tc t) then false
  else
    let d1 := det3 (tv_x (ta t)) (tv_x (tb t)) (tv_x (tc t))
                   (tv_y (ta t)) (tv_y (tb t)) (tv_y (tc t)) f1 f1 f1 in
    let row (p : tvert) :=
      (tv_x p -! tv_x v, tv_y p -! tv_y v,
       (tv_x p *! tv_x p -! tv_x v *! tv_x v) +! (tv_y p *! tv_y p -! tv_y v *! tv_y v)) in
    let '(a1, a2, a3) := row (ta t) in
    let '(b1, b2, b3) := row (tb t) in
    let '(c1, c2, c3) := row (tc t) in
    let d2 := det3 a1 a2 a3 b1 b2 b3 c1 c2 c3 in
    geps <! (d1 *! d2).

(** triangulation.cpp:76-84: edges equal to their successor are dropped
    together with it *)
Fixpoint fan (v : tvert) (es : list tedge) : list triangle :=
  match es with
  | [] => []
  | e :: rest =>
      match rest with
      | e' :: rest' => if te_eqb e e' then fan v rest'
                       else mkT v (te_b e) (te_e e) :: fan v rest
      | [] => [mkT v (te_b e) (te_e e)]
      end
  end.

(** triangulation.cpp:59-85: one round of the main loop *)
Definition insert_vertex (ts : list triangle) (v : tvert) : res (list triangle) :=
  let hit := filter (fun t => circum_contains t v) ts in
  let keep := filter (fun t => negb (circum_contains t v)) ts in
  es <- sort_res te_ltb (flat_map (fun t => [t_ab t; t_bc t; t_ac t]) hit) ;;
  Ok (keep ++ fan v es).

(** triangulation.cpp:20-41 the indented bounding rectangle *)
Definition tri_bounds (vs : list tvert) : F * F * F * F :=
  let '(minx, maxx, miny, maxy) :=
    fold_left (fun (b : F * F * F * F) v =>
      let '(minx, maxx, miny, maxy) := b in
      (if tv_x v <! minx then tv_x v else minx,
       if maxx <! tv_x v then tv_x v else maxx,
       if tv_y v <! miny then tv_y v else miny,
       if maxy <! tv_y v then tv_y v else maxy))
      vs (fdblmax, fopp fdblmax, fdblmax, fopp fdblmax) in
  (minx -! fofZ 10, maxx +! fofZ 10, miny -! fofZ 10, maxy +! fofZ 10).

(** triangulation.cpp:45-50 the super-triangle *)
Definition super_vertices (vs : list tvert) : tvert * tvert * tvert :=
  let '(minx, maxx, miny, maxy) := tri_bounds vs in
  (mkTV (minx +! miny -! maxy) miny "super1"%string,
   mkTV (maxx +! maxy -! miny) miny "super2"%string,
   mkTV ((minx +! maxx) /! fofZ 2) (maxy +! (maxx -! minx) /! fofZ 2) "super3"%string).

(** triangulation.cpp:90-98 the triangles erased at the end *)
Definition tri_dropped (v0 v1 v2 : tvert) (maxedge : F) (t : triangle) : bool :=
  let has v := tv_eqb (ta t) v || tv_eqb (tb t) v || tv_eqb (tc t) v in
  has v0 || has v1 || has v2 ||
  (maxedge <! te_len (t_ab t)) || (maxedge <! te_len (t_bc t)) || (maxedge <! te_len (t_ac t)) ||
  (sin_a t <! fofZ (-1)) || (sin_b t <! fofZ (-1)) || (sin_c t <! fofZ (-1)).

(** triangulation.cpp:8-106 TriangulateVertices.  Line 99 erases element i and
    steps i back, i.e. the loop is a filter. *)
Definition triangulate_vertices (vs : list tvert) (maxedge : F) : res (list triangle) :=
  if Nat.ltb (List.length vs) 3 then Ok []
  else
    let '(v0, v1, v2) := super_vertices vs in
    let V := v0 :: v1 :: v2 :: vs in
    T <- fold_left (fun acc v => ts <- acc ;; insert_vertex ts v) V (Ok [mkT v0 v1 v2]) ;;
    _ <- sort_res tv_ltb vs ;;   (* line 102: V is sorted and then discarded *)
    sort_res t_ltb (filter (fun t => negb (tri_dropped v0 v1 v2 maxedge t)) T).

(** knn_utils.cpp:42-54: the triangles of one level; maxedge from
    boost_geometry_adaptation.h:27-32 *)
Definition level_triangles (l : level F) : res (list triangle) :=
  let vs := map (fun rp => mkTV (px (rp_pt rp)) (py (rp_pt rp)) (rp_id rp)) (rm_points (l_rm l)) in
  let w := px (bmax (l_box l)) -! px (bmin (l_box l)) in
  let h := py (bmax (l_box l)) -! py (bmin (l_box l)) in
  triangulate_vertices vs (fmax w h).

(** knn_utils.cpp:29-86 triangulate: the first level whose triangulation is
    empty ends the whole computation *)
Fixpoint triangulate_levels (ls : list (level F)) (acc : list (string * list tri)) : res (list (string * list tri)) :=
  match ls with
  | [] => Ok acc
  | l :: rest =>
      if Nat.ltb 3 (List.length (rm_points (l_rm l))) then
        T <- level_triangles l ;;
        match T with
        | [] => Ok acc
        | ts =>
            triangulate_levels rest
              (ainsert (l_id l)
                 (map (fun t => mkTri (tv_id (ta t)) (tv_id (tb t)) (tv_id (tc t))) ts) acc)
        end
      else triangulate_levels rest acc
  end.
Definition triangulate (c : collector F) : res (list (string * list tri)) :=
  triangulate_levels (col_levels c) [].
End Tri.
Arguments tvert F : clear implicits.
Arguments tedge F : clear implicits.
Arguments triangle F : clear implicits.
Arguments mkTV {F}.
Arguments mkTE {F}.
Arguments mkT {F}.
