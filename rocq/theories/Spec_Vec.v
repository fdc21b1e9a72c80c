(** Vocabulary of C112: real vectors and quaternions as tuples. *)
From Coq Require Import Reals.
From Verif Require Import Base NumReal Sensors.
Set Implicit Arguments.
Local Open Scope R_scope.
Definition rv (a b c : R) : vec3 RX := mkV (Some a : RX) (Some b : RX) (Some c : RX).
Definition rq (w a b c : R) : quat RX := mkQ (Some w : RX) (Some a : RX) (Some b : RX) (Some c : RX).
(** largest difference of two vectors along an axis *)
Definition farthest (a b c a' b' c' : R) : R := Rmax (Rabs (a - a')) (Rmax (Rabs (b - b')) (Rabs (c - c'))).
