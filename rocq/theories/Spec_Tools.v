(** Vocabulary of the properties of the verification tools (C74-C81). *)
From Coq Require Import Reals Relation_Operators.
From Verif Require Import Lib NumReal Tools Driver Spec_Geo.
Set Implicit Arguments.

(** ** The sphere *)
Definition radians (d : R) : R := (PI * d / 180)%R.
Definition vec := (R * R * R)%type.
(** the unit vector of a point given by latitude and longitude in degrees *)
Definition on_sphere (p : pt) : vec :=
  let la := radians (fst p) in let lo := radians (snd p) in
  (cos la * cos lo, cos la * sin lo, sin la)%R.
Definition dot3 (u v : vec) : R :=
  let '(a, b, c) := u in let '(x, y, z) := v in (a * x + b * y + c * z)%R.
Definition earth : R := 6378000%R.
(** [d] metres along the great circle: the angle is in [0, pi] and its cosine is
    the scalar product of the two directions *)
Definition great_circle (p q : pt) (d : R) : Prop :=
  (0 <= d <= earth * PI)%R /\ cos (d / earth) = dot3 (on_sphere p) (on_sphere q).

(** ** Graphs *)
(** [a] and [b] are the end points of an edge *)
Definition seg {P : Type} (g : graph P) (a b : P) : Prop :=
  exists i j, (In (i, j) (g_edges g) \/ In (j, i) (g_edges g)) /\ In (i, a) (g_verts g) /\ In (j, b) (g_verts g).
(** two vertices are linked by an edge *)
Definition linked {P : Type} (g : graph P) (i j : Z) : Prop := In (i, j) (g_edges g) \/ In (j, i) (g_edges g).
(** lines of two points or more: the first and the second point *)
Definition ends {P : Type} (lines : list (list P)) (p q : P) : Prop :=
  exists rest, In (p :: q :: rest) lines.
(** two snapped end points are the ends of a line *)
Definition drawn {P : Type} (lines : list (list P)) (snap : P -> P) (a b : P) : Prop :=
  exists p q, ends lines p q /\ ((a = snap p /\ b = snap q) \/ (a = snap q /\ b = snap p)).
(** every line has two points *)
Definition two_points {P : Type} (lines : list (list P)) : Prop := forall l, In l lines -> (2 <= List.length l)%nat.
Definition connected {X : Type} (r : X -> X -> Prop) : X -> X -> Prop := clos_refl_sym_trans X r.
(** any order of iteration *)
Definition any_order {X : Type} (ord : list X -> list X) : Prop := forall l, Permutation l (ord l).
(** the vertex [b] has a smaller number than [a] *)
Definition earlier {P : Type} (vm : list (Z * P)) (b a : P) : Prop :=
  exists v w, In (v, b) vm /\ In (w, a) vm /\ (v < w)%Z.

(** ** Fingerprints *)
(** the (rssi, count) pairs that count: the first of every rssi *)
Definition counted (vals : list (Z * Z)) (e : Z * Z) : Prop := first_with (fun x => fst x = fst e) vals e.
Definition zsum {A : Type} (f : A -> Z) (l : list A) : Z := fold_right (fun x s => (f x + s)%Z) 0%Z l.
(** 32-bit int *)
Definition in_int (z : Z) : Prop := (- 2 ^ 31 <= z < 2 ^ 31)%Z.
(** the negated rssi, and the products formed for an entry *)
Definition no_overflow (e : Z * Z) : Prop :=
  let '(r, c) := e in in_int (- r) /\ in_int (- r * c) /\ in_int (c * r) /\ in_int (c * r * r).

(** ** Features *)
Section Features.
Context {F : Type} {NF : Num F} {A : Type}.
Definition opt_or (o : option F) (d : F) : F := match o with Some x => x | None => d end.
(** transmitter features of a level, and what a transmitter is read as: the
    coordinates are longitude first *)
Definition is_tx (lv : string) (f : jfeature F A) : bool :=
  match f with JTx l _ _ _ _ _ _ _ => String.eqb l lv | _ => false end.
Definition reads_tx (f : jfeature F A) (t : gtransmitter F) : Prop :=
  exists lv id ty lng la alt a b, f = JTx lv id ty lng la alt a b /\
    gt_id t = id /\ gt_type t = ty /\ gt_lat t = la /\ gt_lon t = lng /\ gt_alt t = opt_or alt f0 /\
    gt_pl t = mkPL (opt_or a (fofZ (-80))) (opt_or b (fofZ 3)) f0.
Definition is_rp (lv : string) (f : jfeature F A) : bool :=
  match f with JRp l _ _ _ _ => String.eqb l lv | _ => false end.
Definition reads_rp (f : jfeature F A) (r : grefpoint F) : Prop :=
  exists lv id lng la es, f = JRp lv id lng la es /\
    grp_id r = id /\ grp_pt r = mkGeo la lng /\ fingerprints es = Ok (grp_fp r).
Definition is_graph (lv : string) (f : jfeature F A) : Prop := exists lines, f = JGraph lv lines.
Definition is_level (lv : string) (f : jfeature F A) : Prop := exists a, f = JLevel lv a.
(** no undefined arithmetic, no line of one point, no coordinates that are not
    the same as themselves *)
Definition readable (fuel : nat) (f : jfeature F A) : Prop :=
  match f with
  | JGraph _ lines => two_points lines /\ (forall p, In p (List.concat lines) -> same_point p p = true) /\ (List.length (List.concat lines) <= fuel)%nat
  | JRp _ _ _ _ es => forall e x, In e es -> counted (je_vals e) x -> no_overflow x
  | _ => True
  end.
End Features.
