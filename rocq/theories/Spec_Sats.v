(** Vocabulary of C119 and C120. *)
From Verif Require Import Base Types Sensors Spec_Client.
Set Implicit Arguments.
Local Open Scope list_scope.

(** the message tells a number of satellites below [least]: only the first
    sentence of a group counts, and zero tells nothing *)
Definition few (least : Z) (n : stamped nmea) : Prop :=
  n_sentence (st_data n) = 1%Z /\ n_sats (st_data n) <> 0%Z /\ (n_sats (st_data n) < least)%Z.
(** the last satellite message of a history *)
Definition last_nmea {F : Type} (n : stamped nmea) (ms : list (measurement F)) : stamped nmea :=
  fold_left (fun n m => match st_data m with MNmea d => mkSt d (st_ts m) | _ => n end) ms n.

(** two pedometers that differ in the remembered step durations only *)
Definition same_but_durations {F : Type} (p q : pedometer F) : Prop :=
  pd_acc p = pd_acc q /\ pd_mags p = pd_mags q /\ pd_size p = pd_size q /\
  pd_possible p = pd_possible q /\ pd_steptime p = pd_steptime q.
