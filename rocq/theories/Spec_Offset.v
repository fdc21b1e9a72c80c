(** Vocabulary of the calibration property (C91). *)
From Coq Require Import Reals List String.
From Verif Require Import Types NumReal LibR Knn.
Set Implicit Arguments.
Local Open Scope R_scope.

(** the same measurement received [k] dB stronger *)
Definition louder (k : R) (m : radio RX) : radio RX :=
  mkRadio (r_type m) (r_id m) (Some (rval (r_rssi m) + k)) (r_power m) (r_dist m) (r_std m).
(** the same radio map surveyed [k] dB stronger *)
Definition surveyed_louder (k : R) (rm : rmap RX) : rmap RX :=
  map (fun e => (fst e, (fst (snd e), mkSS (ss_type (snd (snd e))) (Some (rval (ss_mean (snd (snd e))) + k)) (ss_var (snd (snd e))) (ss_n (snd (snd e)))))) rm.
