(** C119: how many satellites a fix needs.  C120: the remembered step durations
    do not matter. *)
From Verif Require Import Lib NumOrd NumReal NumFloat SortInst Client Spec_Preproc Spec_Client Spec_Sensors Spec_Sats
  Pf_Client Pf_SaPed Ex P_Client.
From Coq Require Import Lia Reals Lra.
Local Open Scope string_scope.
Local Open Scope list_scope.
#[local] Existing Instance nf.
#[local] Existing Instance isorter.

Section Sats.
Context {F : Type} {NF : Num F} {SO : Sorter}.

Lemma sats_few s n : negb (num_sats n =? 0)%Z && (num_sats n <? @s_minsats F s)%Z = true <-> few (s_minsats s) n.
Proof.
  unfold num_sats, few. rewrite Bool.andb_true_iff, Bool.negb_true_iff, Z.eqb_neq, Z.ltb_lt.
  destruct (n_sentence (st_data n) =? 1)%Z eqn:E1; cbn [andb].
  - apply Z.eqb_eq in E1. destruct (n_sats (st_data n) =? 0)%Z eqn:E2; cbn [negb].
    + apply Z.eqb_eq in E2. split; [intros [X _]; congruence|intros (_ & X & _); congruence].
    + apply Z.eqb_neq in E2. tauto.
  - apply Z.eqb_neq in E1. split; [intros [X _]; congruence|intros (X & _); congruence].
Qed.

(** too few satellites: the sample gives no position and the last fix stays *)
Theorem C119_few (s : settings F) (col : collector F) o ts m n fl o' p :
  few (s_minsats s) n -> s_type (st_data m) = LOCATION ->
  outdoor_position s col o ts m n fl = Ok (o', p) -> p = pos0 /\ ou_last o' = ou_last o.
Proof.
  intros Hn Ht H. apply sats_few in Hn. unfold outdoor_position, gps_of in H. rewrite Ht in H. cbv zeta in H.
  assert (EL : forall b : bool, ou_last (if b then mkOutd (ou_last o) [] else o) = ou_last o) by (intros []; reflexivity).
  destruct (find _ _) as [l|]; [|injection H as <- <-; split; [reflexivity|apply EL]].
  destruct (negb _ && s_sigma s).
  - destruct (Nat.eqb _ _ && Nat.eqb _ 0); [discriminate|]. cbn [bind] in H. destruct (sigma_add _ _ _ _) as [buf valid].
    rewrite Hn, Bool.orb_true_r in H. injection H as <- <-. split; [reflexivity|apply EL].
  - cbn [bind] in H. rewrite Hn, Bool.orb_true_r in H. injection H as <- <-. split; [reflexivity|apply EL].
Qed.

(** otherwise what the message says does not matter: later sentences of a
    group, a count of zero and any sufficient count all act alike *)
Theorem C119_otherwise (s : settings F) (col : collector F) o ts m n n' fl :
  ~ few (s_minsats s) n -> ~ few (s_minsats s) n' ->
  outdoor_position s col o ts m n fl = outdoor_position s col o ts m n' fl.
Proof.
  intros H H'. rewrite <- sats_few in H, H'. apply Bool.not_true_is_false in H. apply Bool.not_true_is_false in H'.
  unfold outdoor_position. cbv zeta. destruct (gps_of s m) as [[[la lo] d]|]; [|reflexivity].
  destruct (find _ _); [|reflexivity]. match goal with |- bind ?x _ = bind ?x _ => destruct x as [[buf valid]| | |] end; cbn [bind]; try reflexivity.
  rewrite H, H'. reflexivity.
Qed.

Lemma outdoor_few s (col : collector F) o ts m n fl o' p : few (s_minsats s) n ->
  outdoor_position s col o ts m n fl = Ok (o', p) -> ou_last o' = ou_last o.
Proof.
  intros Hn H. destruct (s_type (st_data m)) eqn:T; try (eapply C119_few; eassumption);
  unfold outdoor_position, gps_of in H; rewrite T in H; cbv zeta in H;
  destruct (_ || _); destruct (_ <! _); injection H as <- <-; reflexivity.
Qed.

Lemma update_nmea s (col : collector F) p m p' : update_measurements s col p m = Ok p' ->
  pp_nmea p' = match st_data m with MNmea d => mkSt d (st_ts m) | _ => pp_nmea p end.
Proof.
  unfold update_measurements. destruct (st_data m) as [r|d|d]; intros H.
  - repeat match goal with
      | H : bind _ _ = Ok _ |- _ => inv_bind H
      | H : (if ?b then _ else _) = Ok _ |- _ => destruct b
      | H : Ok _ = Ok _ |- _ => injection H as <-
      end; try discriminate; reflexivity.
  - injection H as <-; reflexivity.
  - injection H as <-; reflexivity.
Qed.
Lemma step_nmea e k c m c' o : nav_step e k c m = Ok (c', o) ->
  pp_nmea (c_pre c') = match st_data m with MNmea d => mkSt d (st_ts m) | _ => pp_nmea (c_pre c) end /\
  exists ts sm fl p, outdoor_position (cf_set k) (cf_col k) (c_outd c) ts sm (pp_nmea (c_pre c')) fl = Ok (c_outd c', p).
Proof.
  intros H. destruct (nav_step_inv _ _ _ _ H) as (pre & sf & mi & pre1 & rs & det & lev & lid & outd & outp & oc & ns
    & H1 & H2 & H3 & H4 & H5 & H6 & H7 & H8 & ->). cbn [c_pre c_outd].
  destruct (extract_radio_keeps _ _ _ _ _ H3) as (_ & _ & _ & E4). rewrite E4, (@update_nmea _ _ _ _ _ H1). split; [reflexivity|].
  rewrite (@update_nmea _ _ _ _ _ H1) in H6. eauto.
Qed.

(** the message a client goes by is the last one of the history, however old *)
Theorem C119_last_message e k (ms : list (measurement F)) : forall c c' os,
  process e k c ms = Ok (c', os) -> pp_nmea (c_pre c') = last_nmea (pp_nmea (c_pre c)) ms.
Proof.
  induction ms as [|m t IH]; intros c c' os H; cbn [process] in H; [injection H as <- <-; reflexivity|].
  inv_bind H. destruct a as [c1 o]. inv_bind Hb. destruct a as [c2 os']. injection Hb0 as <- <-.
  destruct (@step_nmea _ _ _ _ _ _ Ha) as [E _]. rewrite (IH _ _ _ Ha0). unfold last_nmea. cbn [fold_left]. rewrite E. reflexivity.
Qed.

(** while every message tells too few satellites, no sample of any kind
    changes the last fix *)
Theorem C119_no_new_fix e k (ms : list (measurement F)) : forall c c' os,
  process e k c ms = Ok (c', os) -> few (s_minsats (cf_set k)) (pp_nmea (c_pre c)) ->
  (forall m d, In m ms -> st_data m = MNmea d -> few (s_minsats (cf_set k)) (mkSt d (st_ts m))) ->
  ou_last (c_outd c') = ou_last (c_outd c).
Proof.
  induction ms as [|m t IH]; intros c c' os H Hn Hm; cbn [process] in H; [injection H as <- <-; reflexivity|].
  inv_bind H. destruct a as [c1 o]. inv_bind Hb. destruct a as [c2 os']. injection Hb0 as <- <-.
  destruct (@step_nmea _ _ _ _ _ _ Ha) as (E & ts & sm & fl & p & O).
  assert (N : few (s_minsats (cf_set k)) (pp_nmea (c_pre c1))).
  { rewrite E. destruct (st_data m) as [r|d|d] eqn:D; try exact Hn. apply (Hm m d (or_introl eq_refl) D). }
  rewrite (IH _ _ _ Ha0 N) by (intros x d Hx; apply Hm; right; exact Hx). eapply outdoor_few; eassumption.
Qed.
End Sats.
Print Assumptions C119_few.
Print Assumptions C119_otherwise.
Print Assumptions C119_last_message.
Print Assumptions C119_no_new_fix.

Definition ex_nmea (sentence sats ts : Z) : measurement SF := mkSt (MNmea (mkNmea sentence sats)) ts.
Definition ex_sat_run (ms : list (measurement SF)) :=
  '(c, os) <- ex_run (ex_zones false) ex_gls (ex_garbage (-100000)) (map (fun m => [m]) ms) ;;
  Ok (map (map (fun o => (o_status o, o_prov o))) os, p_ts (ou_last (c_outd c))).
(** one satellite where twenty are asked for: no position; the same count in the
    second sentence of the group is not looked at *)
Example C119_example :
  ex_sat_run [ex_nmea 1 1 500; ex_msn LOCATION 1 1 3 1000] = Ok ([[(NO_LEVEL, None)]; [(NO_LEVEL, None)]], 0%Z) /\
  ex_sat_run [ex_nmea 2 1 500; ex_msn LOCATION 1 1 3 1000] = Ok ([[(NO_LEVEL, None)]; [(OK, Some GNSS)]], 1000%Z) /\
  ex_sat_run [ex_nmea 1 20 500; ex_msn LOCATION 1 1 3 1000] = Ok ([[(NO_LEVEL, None)]; [(OK, Some GNSS)]], 1000%Z) /\
  ex_sat_run [ex_msn LOCATION 1 1 3 1000; ex_nmea 1 19 1500; ex_msn LOCATION 1 1 3 2000; ex_msn LOCATION 2 2 3 3000] =
    Ok ([[(OK, Some GNSS)]; [(OK, Some GNSS)]; [(OK, Some GNSS)]; [(OK, Some GNSS)]], 1000%Z) /\
  few (s_minsats (ex_zones false)) (mkSt (mkNmea 1 19) 1500%Z) /\ ~ few (s_minsats (ex_zones false)) (mkSt (mkNmea 2 1) 500%Z).
Proof.
  repeat split; try (vm_compute; reflexivity); try (vm_compute; congruence). intros (E & _). vm_compute in E. discriminate.
Qed.

(** ** C120 *)
Section Cadence.
Context {F : Type} {NF : Num F} {NO : NumOrd F}.

Lemma body_times mags tb tb' l : (f0 <! (tb : F)) = true -> (f0 <! tb') = true ->
  forall poss st times times' steps r,
  fold_left (ped_body mags tb) l (Ok (poss, st, times, steps)) = Ok r ->
  exists ts, fold_left (ped_body mags tb') l (Ok (poss, st, times', steps)) = Ok (fst (fst (fst r)), snd (fst (fst r)), ts, snd r).
Proof.
  intros T T'. induction l as [|i t IH]; intros poss st times times' steps r H.
  - cbn in *. injection H as <-. cbn. eauto.
  - cbn [fold_left] in *. destruct i as [|j].
    { exfalso. change (ped_body mags tb (Ok (poss, st, times, steps)) 0) with (@UB (ped_loop_state (F:=F))) in H.
      clear - H. induction t as [|x t IH]; [discriminate|apply IH, H]. }
    unfold ped_body at 2 in H. unfold ped_body at 2. cbn [bind] in *.
    assert (UBs : forall l, fold_left (ped_body mags tb) l UB = (UB : res (ped_loop_state (F:=F)))) by (clear; induction l; [reflexivity|exact IHl]).
    destruct (nth_error mags (S j)) as [cur|]; [|rewrite UBs in H; discriminate].
    destruct (nth_error mags j) as [prev|]; [|rewrite UBs in H; discriminate].
    rewrite T in H. rewrite T'. destruct (_ && _ && _ && true); eapply IH; exact H.
Qed.

Lemma step_times p q m p' ss : (f0 <! (f1 *! fofZ 300 : F)) = true -> same_but_durations p q -> ped_step p m = Ok (p', ss) ->
  exists q', ped_step q m = Ok (q', ss) /\ same_but_durations p' q'.
Proof.
  intros P (E1 & E2 & E3 & E4 & E5) H. unfold ped_step in *. inv_bind H. rename a into p1.
  assert (U : exists q1, ped_update q m = Ok q1 /\ same_but_durations p1 q1).
  { clear Hb. unfold ped_update in *. rewrite <- E1, <- E2, <- E4, <- E5. cbv zeta in *.
    destruct (s_type (st_data m)); try (injection Ha as <-; eexists; split; [reflexivity|repeat split]).
    destruct (filtered_magnitude _ _) as [g| | |]; try discriminate Ha. cbn [bind] in *. destruct (skip_while _ _) as [acc| | |]; try discriminate Ha. cbn [bind] in *.
    injection Ha as <-. eexists; split; [reflexivity|repeat split]. }
  destruct U as (q1 & Q & D1 & D2 & D3 & D4 & D5). rewrite Q. cbn [bind]. unfold ped_steps in *. rewrite <- D1, <- D2, <- D3, <- D4, <- D5.
  cbv zeta in *. destruct (Nat.leb _ 3).
  - injection Hb as <- <-. eexists; split; [reflexivity|repeat split; assumption].
  - destruct (fold_left _ _ _) as [[[[poss st] times] steps]| | |] eqn:Ha0; try discriminate Hb. cbn [bind] in Hb.
    destruct (@body_times _ _ _ _ (tb_positive (pd_times p1) P) (tb_positive (pd_times q1) P) _ _ _ (pd_times q1) _ _ Ha0) as (ts & X).
    rewrite X. cbn [bind fst snd]. destruct (skip_while _ _) as [mags| | |]; try discriminate Hb. cbn [bind] in *.
    injection Hb as <- <-. eexists; split; [reflexivity|repeat split].
Qed.

(** whatever durations of earlier steps are remembered, the same steps are
    reported for the same samples from then on: the average that is formed of
    them is compared with zero only *)
Theorem C120_durations_ignored (ms : list (stamped (sensor F))) : forall p q p' r,
  (f0 <! (f1 *! fofZ 300 : F)) = true -> same_but_durations p q -> ped_run p ms = Ok (p', r) ->
  exists q', ped_run q ms = Ok (q', r) /\ same_but_durations p' q'.
Proof.
  induction ms as [|m t IH]; intros p q p' r P S H; cbn [ped_run] in *.
  - injection H as <- <-. eauto.
  - inv_bind H. destruct a as [p1 ss]. inv_bind Hb. destruct a as [p2 rr]. injection Hb0 as <- <-.
    destruct (@step_times _ _ _ _ _ P S Ha) as (q1 & Q & S1). rewrite Q. cbn [bind].
    destruct (IH _ _ _ _ P S1 Ha0) as (q2 & Q2 & S2). rewrite Q2. cbn [bind]. eauto.
Qed.
End Cadence.
Print Assumptions C120_durations_ignored.
(** so no cadence is learned: the code forms 0.6 of the average duration, and a
    step sooner than that after the last one is reported *)
Definition ex_walk (n : nat) : list (stamped (sensor SF)) :=
  map (fun i => let t := (1000 + 250 * Z.of_nat i)%Z in
         ex_sensor ACCELEROMETER 0 0 (if (Z.of_nat i mod 4 =? 0)%Z || Nat.eqb i 26 then 40 else 9) t) (seq 0 n).
Definition soon (p : pedometer SF) (t : Z) : bool :=
  (fofZ (t - pd_possible p) <!
   (lit 6 10 *! fofZ (Z.quot (fold_right Z.add 0%Z (pd_times p)) (Z.of_nat (List.length (pd_times p)))) : SF)).
Theorem C120_cadence_refuted : exists (ms : list (stamped (sensor SF))) m p r p' s,
  ped_run ped0 ms = Ok (p, r) /\ (5 <= List.length (pd_times p))%nat /\ ped_step p m = Ok (p', [s]) /\ soon p (sp_ts s) = true.
Proof.
  exists (ex_walk 26), (ex_sensor ACCELEROMETER 0 0 40 7500).
  destruct (ped_run ped0 (ex_walk 26)) as [[p r]| | |] eqn:E; [|exfalso; vm_compute in E; discriminate E..].
  exists p, r.
  assert (X : match ped_run ped0 (ex_walk 26) with
    | Ok (p, _) => Nat.leb 5 (List.length (pd_times p)) && match ped_step p (ex_sensor ACCELEROMETER 0 0 40 7500) with
        | Ok (_, [s]) => soon p (sp_ts s) | _ => false end
    | _ => false end = true) by (vm_compute; reflexivity).
  rewrite E in X. apply andb_true_iff in X. destruct X as [X1 X2]. apply Nat.leb_le in X1.
  destruct (ped_step p _) as [[p' [|s [|]]]| | |] eqn:S; try discriminate X2. exists p', s. auto.
Qed.
Print Assumptions C120_cadence_refuted.
(** two pedometers in the middle of a walk, one of which forgot it *)
Example C120_example : (f0 <! (f1 *! fofZ 300 : SF)) = true /\ (f0 <! (f1 *! fofZ 300 : RX)) = true /\
  ('(p, r) <- ped_run ped0 (ex_walk 28) ;;
   Ok (pd_times p, List.concat (map (map (@sp_ts SF)) r))) =
  Ok ([1000; 1000; 1000; 1000; 1000; 500]%Z, [2000; 3000; 4000; 5000; 6000; 7000; 7500]%Z) /\
  exists p : pedometer SF, pd_times p <> [] /\
    same_but_durations p (mkPed (pd_acc p) (pd_mags p) [] (pd_size p) (pd_possible p) (pd_steptime p)).
Proof.
  split; [vm_compute; reflexivity|]. split; [|split; [vm_compute; reflexivity|]].
  - cbn. apply Rltb_true. lra.
  - exists (mkPed [] [] [1900%Z] 0 0 0). split; [discriminate|]. repeat split.
Qed.
