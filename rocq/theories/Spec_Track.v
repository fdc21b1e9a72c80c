(** Vocabulary of the convergence properties of the alpha-beta smoother (C64). *)
From Coq Require Import Reals.
From Verif Require Import Base NumReal LibR Smooth Spec_Smooth.
Set Implicit Arguments.
Local Open Scope R_scope.

(** one position every [H] ms after time [T] *)
Definition uniform (T H : Z) (ps : list (position RX)) : Prop :=
  forall k p, nth_error ps k = Some p -> p_ts p = (T + Z.of_nat (S k) * H)%Z.
(** the positions are those of a point that starts at (cx, cy) and moves by
    (dx, dy) from one to the next *)
Definition moving (cx cy dx dy : R) (ps : list (position RX)) : Prop :=
  forall k p, nth_error ps k = Some p -> at_point p (cx + INR (S k) * dx) (cy + INR (S k) * dy).
(** successive results of the smoother *)
Definition smoothed (s : settings RX) (al : RX -> RX -> bool) (a : absm RX) (ps : list (position RX)) : list (position RX) :=
  snd (ab_run s a (map (ASmooth al) ps)).
(** the gain prescribed by the smoothing parameter: 0.9 at 0, 0.1 at 1 *)
Definition gain_of (w : R) : R := 9 / 10 - 8 / 10 * Rmin 1 (Rmax 0 w).
(** squared error bound after [k] results, from the initial position error [e]
    and the initial error [u] of the predicted displacement per step *)
Definition error_bound (g e u : R) (k : nat) : R :=
  (2 - g) * (1 - g) ^ k *
  (e * e - 2 * (1 - g) / g * (e * u) + (1 - g) * (2 - g) / (g * g) * (u * u)).
