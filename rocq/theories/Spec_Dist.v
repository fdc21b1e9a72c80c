(** Specification of the distance a radio measurement carries. *)
From Coq Require Import Reals.
From Verif Require Import Base LevelModel Preproc.
Set Implicit Arguments.

Section Spec.
Context {F : Type} {NF : Num F}.
(** the transmitter of that name on the first level that has one *)
Definition first_installed (c : collector F) (tx : string) (t : transmitter F) : Prop :=
  exists before l after, col_levels c = before ++ l :: after /\
    Forall (fun l' => ~ In tx (map fst (l_txs l'))) before /\ alookup tx (l_txs l) = Some t.
Definition nowhere (c : collector F) (tx : string) : Prop :=
  Forall (fun l => ~ In tx (map fst (l_txs l))) (col_levels c).
(** only the distance is changed: the offset is subtracted from a measured
    distance, otherwise it follows from the strength and the two constants of
    the transmitter, if there is one *)
Definition carries (s : settings F) (c : collector F) (m m' : radio F) : Prop :=
  r_id m' = r_id m /\ r_rssi m' = r_rssi m /\ r_type m' = r_type m /\
  (r_type m = WIFI_RTT -> r_dist m' = r_dist m -! s_rttoff s) /\
  (r_type m <> WIFI_RTT ->
    (forall t, first_installed c (r_id m) t -> r_dist m' = fexp ((pl_A (t_pl t) -! r_rssi m) /! pl_B (t_pl t))) /\
    (nowhere c (r_id m) -> r_dist m' = r_dist m)).
End Spec.
