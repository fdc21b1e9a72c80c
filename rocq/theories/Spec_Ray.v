(** Vocabulary of C97: points on segments, rays and lines. *)
From Coq Require Import Reals.
From Verif Require Import Lib NumReal Ray Spec_Post Spec_Geo.
Set Implicit Arguments.
Local Open Scope R_scope.

(** the predicates at real points *)
Definition on_segment (p a b : pt) : bool :=
  point_on_line (Some (fst p) : RX) (Some (snd p)) (Some (fst a)) (Some (snd a)) (Some (fst b)) (Some (snd b)).
Definition ray_hits (p a b : pt) : bool :=
  xray_intersects_line (Some (fst p) : RX) (Some (snd p)) (Some (fst a)) (Some (snd a)) (Some (fst b)) (Some (snd b)).

(** a vertex at the height of [p] is lifted by a tenth of a millimetre *)
Definition lifted (p v v' : pt) : Prop :=
  (Rabs (snd p - snd v) < eps /\ v' = (fst v, snd v + 1 / 10000)) \/ (eps <= Rabs (snd p - snd v) /\ v' = v).
(** the segment has an inner point at the height of [p], not more than [tol] to the left of [p] *)
Definition right_of (p a b : pt) (tol : R) : Prop :=
  exists k, 0 < k < 1 /\ snd (along a b k) = snd p /\ fst p < fst (along a b k) + tol.

(** the sides of a closed polygon *)
Definition sides (vs : list pt) : list (pt * pt) := match vs with [] => [] | v :: r => combine vs (r ++ [v]) end.
(** location points with real coordinates *)
Definition loc (l : string) (p : pt) : string * XY RX := (l, rx_pt p).
