(** Vocabulary of the reported-radius property (C89). *)
From Verif Require Import Base Num LevelModel Client.
Set Implicit Arguments.

Section Radius.
Context {F : Type} {NF : Num F}.

(** a radius an indoor estimate of these settings can have: one metre for a
    radio-map (KNN) client, a function of one signal level for a zone client *)
Definition estimated (s : settings F) (r : F) : Prop :=
  match s_algo s with
  | KNN => r = f1
  | _ => exists i A B x, In (i, (A, B)) (s_levels s) /\ r = fsqrt (fexp ((A -! x) /! B)) +! f1
  end.
(** the radius of a GNSS fix among these measurements *)
Definition gnss_radius (s : settings F) (ms : list (measurement F)) (r : F) : Prop :=
  exists m d, In m ms /\ st_data m = MSensor d /\ s_type d = LOCATION /\ r = fmax (vz (s_val d)) (s_mingpsdev s).

(** the radius that goes with a fix: an indoor estimate's; none at all (zero)
    or the receiver's own, and both only for a fix that is GNSS's alone *)
Definition radius_of (s : settings F) (ms : list (measurement F)) (o : noutput F) : Prop :=
  exists r, o_r o = Some r /\
    (estimated s r \/ o_prov o = Some GNSS /\ (r = f0 \/ gnss_radius s ms r)).
End Radius.
