(** Vocabulary of C98: the interface of the likelihood. *)
From Coq Require Import Reals.
From Verif Require Import Lib NumReal LibR Like Spec_Radio.
Set Implicit Arguments.

(** how many of the measurements are from these transmitters *)
Fixpoint from_among {F : Type} (ids : list string) (ms : list (radio F)) : nat :=
  match ms with
  | [] => 0
  | m :: r => (if in_dec string_dec (r_id m) ids then 1 else 0) + from_among ids r
  end.
(** the measurements suffice on the level *)
Definition enough {F : Type} (kt : ktables F) (need : nat) (l : level F) (ms : list (radio F)) : Prop :=
  exists ids, alookup (l_id l) (kt_refs kt) = Some ids /\ (need <= from_among ids ms)%nat.
(** the place a level has for a transmitter, in the plane *)
Definition tx_place (l : level RX) (id : string) : option (R * R) :=
  match alookup id (l_txs l) with Some t => Some (rval (zx (t_pt t)), rval (zy (t_pt t))) | None => None end.
Local Open Scope R_scope.
(** the particle is not farther from the transmitter than measured, up to 1e-7 *)
Definition within (l : level RX) (x y : R) (m : radio RX) : Prop :=
  exists u v, tx_place l (r_id m) = Some (u, v) /\ sqrt ((u - x) * (u - x) + (v - y) * (v - y)) <= rval (r_dist m) + 1 / 10000000.
Definition beyond (l : level RX) (x y : R) (m : radio RX) : Prop :=
  exists u v, tx_place l (r_id m) = Some (u, v) /\ rval (r_dist m) + 1 / 10000000 < sqrt ((u - x) * (u - x) + (v - y) * (v - y)).
Definition real_tx (l : level RX) (m : radio RX) : Prop :=
  defined (r_dist m) /\ forall t, alookup (r_id m) (l_txs l) = Some t -> defined (zx (t_pt t)) /\ defined (zy (t_pt t)).
