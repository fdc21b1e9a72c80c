(** The operators of Vector3d and Quaternion that modify their object, and the
    comparisons.  Models src/vector3d.cpp, include/navigine/navigation-core/vector3d.h,
    src/sensor_fusion/quaternion.cpp and their stand-alone copies
    (standalone_algorithms/{complementary_filter,pedometer}); the operations that return a
    new object and that the filters use are in Sensors.v. *)
From Verif Require Export Sensors.
Set Implicit Arguments.

Section Vec.
Context {F : Type} {NF : Num F}.

(** vector3d.cpp:46-49 *)
Definition v_null (v : vec3 F) : bool := (vx v =! f0) && (vy v =! f0) && (vz v =! f0).
(** vector3d.cpp:51-56 with DOUBLE_EPSILON (line 14); the stand-alone vector3d.h:35-40 with the machine
    epsilon instead *)
Definition v_eq (eps : F) (a b : vec3 F) : bool :=
  (fabs (vx a -! vx b) <! eps) && (fabs (vy a -! vy b) <! eps) && (fabs (vz a -! vz b) <! eps).
Definition core_eps : F := lit 1 100000000.
(** vector3d.cpp:58-61 *)
Definition v_ne (eps : F) (a b : vec3 F) : bool := negb (v_eq eps a b).
(** vector3d.cpp:71-77, vector3d.h:57-60; component-wise, so an argument that is the object itself makes
    no difference *)
Definition v_sub (a b : vec3 F) : vec3 F := mkV (vx a -! vx b) (vy a -! vy b) (vz a -! vz b).
(** vector3d.h:62-65 *)
Definition v_neg (a : vec3 F) : vec3 F := mkV (fopp (vx a)) (fopp (vy a)) (fopp (vz a)).
(** vector3d.cpp:87-93, vector3d.h:67-70; the divisor is passed by value *)
Definition v_div (a : vec3 F) (k : F) : vec3 F := mkV (vx a /! k) (vy a /! k) (vz a /! k).
(** vector3d.cpp:37-44 *)
Definition v_normalize (v : vec3 F) : vec3 F :=
  let len := v_mag v in if feps <! fabs len then v_div v len else v.
(** vector3d.cpp:95-98 *)
Definition v_dot (a b : vec3 F) : F := vx a *! vx b +! vy a *! vy b +! vz a *! vz b.

(** quaternion.cpp:63-70; component-wise *)
Definition q_sub (a b : quat F) : quat F := mkQ (qw a -! qw b) (qx a -! qx b) (qy a -! qy b) (qz a -! qz b).

(** what a [const double&] argument of [*=] refers to: another number or a component of the object *)
Inductive sref := SVal : F -> sref | SW | SX | SY | SZ.
Definition deref (q : quat F) (s : sref) : F :=
  match s with SVal k => k | SW => qw q | SX => qx q | SY => qy q | SZ => qz q end.
(** quaternion.cpp:72-79: four assignments in this order, each reading the argument anew *)
Definition q_iscale (q : quat F) (s : sref) : quat F :=
  let q := mkQ (qw q *! deref q s) (qx q) (qy q) (qz q) in
  let q := mkQ (qw q) (qx q *! deref q s) (qy q) (qz q) in
  let q := mkQ (qw q) (qx q) (qy q *! deref q s) (qz q) in
  mkQ (qw q) (qx q) (qy q) (qz q *! deref q s).
(** quaternion.cpp:81-89; [None]: the argument is the object itself *)
Definition q_imul (a : quat F) (o : option (quat F)) : quat F :=
  let other (q : quat F) := match o with Some b => b | None => q end in
  let q := a in
  let q := mkQ (qw a *! qw (other q) -! qx a *! qx (other q) -! qy a *! qy (other q) -! qz a *! qz (other q)) (qx q) (qy q) (qz q) in
  let q := mkQ (qw q) (qw a *! qx (other q) +! qx a *! qw (other q) +! qy a *! qz (other q) -! qz a *! qy (other q)) (qy q) (qz q) in
  let q := mkQ (qw q) (qx q) (qw a *! qy (other q) -! qx a *! qz (other q) +! qy a *! qw (other q) +! qz a *! qx (other q)) (qz q) in
  mkQ (qw q) (qx q) (qy q) (qw a *! qz (other q) +! qx a *! qy (other q) -! qy a *! qx (other q) +! qz a *! qw (other q)).
End Vec.
