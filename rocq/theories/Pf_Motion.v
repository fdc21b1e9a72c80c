(** Sensor fusion (C47). *)
From Coq Require Import Reals Lra Lia ZArith.
From Verif Require Import Base Lib NumReal LibR Sensors Spec_Sensors Pf_Angle Pf_Sensors Pf_Cf.
Set Implicit Arguments.

Section Motion.
Context {F : Type} {NF : Num F}.

Lemma sf_step_spec fuel s (f f' : sfusion F) m ts o : sf_step fuel s f m ts = Ok (f', o) ->
  exists ss, ped_step (sf_ped f) m = Ok (sf_ped f', ss) /\ cf_update fuel (cf_conf s) (sf_cf f) m = Ok (sf_cf f') /\
  mi_head o = fopp (fused_azimuth (sf_cf f')) /\ mi_gyro o = cf_gyroh (sf_cf f') /\
  (mi_azim o, mi_azvalid o) = (if s_calcaz s then (cf_magaz (sf_cf f'), true)
    else if negb (azimuth_outdated (cf_conf s) (sf_cf f')) then (cf_devaz (sf_cf f'), true) else (f0, false)) /\
  (ss = [] /\ mi_step o = false /\ mi_count o = 0%Z /\ mi_lastTs o = 0%Z /\ mi_dist o = f0 /\ mi_dangle o = f0 /\
     sf_steps f' = sf_steps f /\ sf_prevhead f' = sf_prevhead f \/
   ss <> [] /\ mi_step o = true /\ mi_count o = (sf_steps f + Z.of_nat (List.length ss))%Z /\ mi_lastTs o = ts /\
     mi_dist o = fsum (@sp_len F) ss *! s_stepmult s /\ mi_dangle o = mi_head o -! sf_prevhead f /\
     sf_steps f' = (sf_steps f + Z.of_nat (List.length ss))%Z /\ sf_prevhead f' = mi_head o).
Proof.
  unfold sf_step. intros H. inv_bind H. rename a into p1. inv_bind Hb. destruct a as [p2 ss]. inv_bind Hb0. rename a into c.
  exists ss. unfold ped_step. rewrite Ha. cbn [bind].
  destruct (if s_calcaz s then _ else _) as [az azv] eqn:Eaz.
  destruct ss as [|s1 t]; injection Hb as <- <-; cbn [sf_ped sf_cf mi_head mi_gyro mi_azim mi_azvalid mi_step mi_count mi_lastTs mi_dist mi_dangle sf_steps sf_prevhead];
    (split; [exact Ha0|]); (split; [exact Ha1|]); (split; [reflexivity|]); (split; [reflexivity|]); (split; [symmetry; exact Eaz|]).
  - left. repeat split.
  - right. repeat split. discriminate.
Qed.

Lemma sf_run_ok fuel s ms : forall (f f' : sfusion F) os, ped_inv (sf_ped f) -> sf_run fuel s f ms = Ok (f', os) ->
  motions_ok (sf_steps f) (sf_prevhead f) (combine (map snd ms) os) /\ List.length os = List.length ms.
Proof.
  induction ms as [|[m ts] t IH]; intros f f' os I E; cbn [sf_run] in E.
  - injection E as _ <-. cbn. auto.
  - inv_bind E. destruct a as [f1 o]. inv_bind Hb. destruct a as [f2 r]. injection Hb0 as <- <-.
    destruct (sf_step_spec _ _ _ _ _ Ha) as (ss & Hp & _ & _ & _ & _ & H).
    destruct (@ped_step_inv _ _ _ _ _ _ I Hp) as (I1 & L1 & _).
    destruct (IH f1 f2 r I1 Ha0) as [H1 H2]. cbn [map snd combine motions_ok List.length]. split; [|rewrite H2; reflexivity].
    destruct H as [(-> & -> & -> & -> & -> & -> & E1 & E2)|(Hss & -> & -> & -> & _ & -> & E1 & E2)].
    + rewrite E1, E2 in H1. auto 6.
    + assert (L : Z.of_nat (List.length ss) = 1%Z) by (destruct ss as [|x [|]]; cbn in *; [congruence|reflexivity|lia]).
      rewrite L in *. rewrite E1, E2 in H1. auto.
Qed.

(** the pedometer inside *)
Lemma sf_run_ped fuel s ms : forall (f f' : sfusion F) os, sf_run fuel s f ms = Ok (f', os) ->
  exists r, ped_run (sf_ped f) (map fst ms) = Ok (sf_ped f', r) /\
    map (@mi_step F) os = map (fun ss => match ss with [] => false | _ => true end) r.
Proof.
  induction ms as [|[m ts] t IH]; intros f f' os E; cbn [sf_run] in E.
  - injection E as <- <-. exists []. auto.
  - inv_bind E. destruct a as [f1 o]. inv_bind Hb. destruct a as [f2 r]. injection Hb0 as <- <-.
    destruct (sf_step_spec _ _ _ _ _ Ha) as (ss & Hp & _ & _ & _ & _ & H).
    destruct (IH f1 f2 r Ha0) as (rs & H1 & H2). exists (ss :: rs). cbn [map fst ped_run]. rewrite Hp. cbn [bind]. rewrite H1. cbn [bind].
    split; [reflexivity|]. rewrite H2. f_equal.
    destruct H as [(-> & -> & _)|(Hss & -> & _)]; [reflexivity|]. destruct ss; [congruence|reflexivity].
Qed.

Lemma sf_run_snoc fuel s ms m ts : forall (f f' : sfusion F) os, sf_run fuel s f (ms ++ [(m, ts)]) = Ok (f', os) ->
  exists f1 os1 o, sf_run fuel s f ms = Ok (f1, os1) /\ sf_step fuel s f1 m ts = Ok (f', o) /\ os = os1 ++ [o].
Proof.
  induction ms as [|[x tx] t IH]; intros f f' os E; cbn [app sf_run] in E.
  - inv_bind E. destruct a as [f1 o]. injection Hb as <- <-. exists f, [], o. auto.
  - inv_bind E. destruct a as [f1 o]. inv_bind Hb. destruct a as [f2 r]. injection Hb0 as <- <-.
    destruct (IH f1 f2 r Ha0) as (g & os1 & o1 & E1 & E2 & ->). exists g, (o :: os1), o1.
    cbn [sf_run]. rewrite Ha. cbn [bind]. rewrite E1. auto.
Qed.

(** the device azimuth *)
Lemma cf_update_dev fuel k (c c' : cfilter F) m : cf_update fuel k c m = Ok c' -> cf_cur c' = st_ts m /\
  (is_orientation m = true -> cf_devts c' = st_ts m /\ cf_devaz c' = vx (s_val (st_data m))) /\
  (is_orientation m = false -> cf_devts c' = cf_devts c /\ cf_devaz c' = cf_devaz c).
Proof.
  unfold cf_update, is_orientation. intros H. destruct (s_type (st_data m));
    try (injection H as <-; cbn; repeat split; congruence).
  destruct (if (cf_gyro c =? -1)%Z then _ else _) as [q ie]. inv_bind H. injection Hb as <-. cbn. repeat split; congruence.
Qed.
Lemma last_orientation_snoc ms (m : stamped (sensor F)) :
  last_orientation (ms ++ [m]) = if is_orientation m then Some m else last_orientation ms.
Proof. unfold last_orientation. rewrite rev_app_distr. reflexivity. Qed.

Lemma dev_history fuel s gm ga ms : forall f' os, sf_run fuel s (sf0 gm ga) ms = Ok (f', os) ->
  match last_orientation (map fst ms) with
  | Some x => cf_devts (sf_cf f') = st_ts x /\ cf_devaz (sf_cf f') = vx (s_val (st_data x))
  | None => cf_devts (sf_cf f') = (-1)%Z
  end.
Proof.
  induction ms as [|[m ts] ms IH] using rev_ind; intros f' os E.
  - cbn in E. injection E as <- _. reflexivity.
  - apply sf_run_snoc in E as (f1 & os1 & o & E1 & E2 & _). specialize (IH _ _ E1).
    destruct (sf_step_spec _ _ _ _ _ E2) as (ss & _ & Hc & _). apply cf_update_dev in Hc as (_ & H1 & H2).
    rewrite map_app. cbn [map fst]. rewrite last_orientation_snoc. destruct (is_orientation m).
    + exact (H1 eq_refl).
    + destruct (H2 eq_refl) as [-> ->]. exact IH.
Qed.
End Motion.

Section MotionReal.
Local Open Scope R_scope.

Lemma azimuth_valid fuel (s : settings RX) gm ga ms m ts f' os o (life : R) :
  s_calcaz s = false -> s_azlife s = (Some life : RX) ->
  sf_run fuel s (sf0 gm ga) (ms ++ [(m, ts)]) = Ok (f', os ++ [o]) ->
  (mi_azvalid o = true <-> exists x, last_orientation (map fst ms ++ [m]) = Some x /\ st_ts x <> (-1)%Z /\
     IZR (st_ts m - st_ts x) / 1000 <= life) /\
  (mi_azvalid o = true -> forall x, last_orientation (map fst ms ++ [m]) = Some x -> mi_azim o = vx (s_val (st_data x))) /\
  (mi_azvalid o = false -> mi_azim o = f0).
Proof.
  intros Hc Hl E. pose proof (dev_history _ _ _ _ _ E) as D. rewrite map_app in D. cbn [map fst] in D.
  apply sf_run_snoc in E as (f1 & os1 & o' & E1 & E2 & EE). apply app_inj_tail in EE as [<- <-].
  destruct (sf_step_spec _ _ _ _ _ E2) as (ss & _ & Hcf & _ & _ & Haz & _). apply cf_update_dev in Hcf as (Hcur & _).
  rewrite Hc in Haz. unfold azimuth_outdated in Haz. unfold cf_conf in Haz at 1. cbn [k_life] in Haz. rewrite Hl, Hcur in Haz.
  rewrite !rx_ofZ, rx_div, rx_ltb in Haz by lra.
  destruct (last_orientation (map fst ms ++ [m])) as [x|].
  - destruct D as [D1 D2]. rewrite D1, D2 in Haz.
    destruct (Rltb life (IZR (st_ts m - st_ts x) / 1000)) eqn:EL; [apply Rltb_true in EL|apply Rltb_false in EL];
      cbn [orb negb] in Haz.
    + injection Haz as -> ->. repeat split; try congruence. intros (y & Hy & _ & L). injection Hy as <-. lra.
    + destruct (Z.eqb_spec (st_ts x) (-1)) as [Ez|Ez]; cbn [negb] in Haz; injection Haz as -> ->.
      * repeat split; try congruence. intros (y & Hy & Hz & L). injection Hy as <-. congruence.
      * repeat split; try congruence. intros _. exists x. auto.
  - rewrite D, orb_true_r in Haz. cbn [negb] in Haz. injection Haz as -> ->. repeat split; try congruence.
    intros (y & Hy & _). discriminate.
Qed.

(** over the reals a history of real samples never fails and every distance is a non-negative number *)
Record sf_good (f : sfusion RX) : Prop := {
  sg_cf : cf_good (sf_cf f); sg_ped : ped_real (sf_ped f); sg_head : exists h, sf_prevhead f = (Some h : RX) }.

Lemma fused_real f : cf_good (sf_cf f) -> exists y, fused_azimuth (sf_cf f) = (Some (- y) : RX) /\ - PI < y <= PI.
Proof.
  intros [(w & x & y & z & Hq & H) _]. unfold fused_azimuth. unfold real_quat in Hq. rewrite Hq, yaw_real, rx_opp.
  eexists. split; [reflexivity|]. apply atan2_range.
Qed.

Lemma sf_step_good fuel (s : settings RX) f m ts k : (3 <= fuel)%nat -> s_stepmult s = (Some k : RX) -> 0 <= k ->
  sf_good f -> real_sample m -> exists f' o, sf_step fuel s f m ts = Ok (f', o) /\ sf_good f' /\
    (exists d, mi_dist o = (Some d : RX) /\ 0 <= d) /\ (exists h, mi_head o = (Some h : RX) /\ - PI < h <= PI) /\
    (exists a, mi_dangle o = (Some a : RX)).
Proof.
  intros Hf Hk Hk0 [G1 G2 [h0 Hh]] Hm.
  destruct (ped_step_spec (sf_ped f) m) as (p1 & p2 & ss & E1 & E2 & Hn & Hacc & HS).
  destruct (@cf_update_good fuel (cf_conf s) (sf_cf f) m Hf (conf_real s) G1 Hm) as (c & E3 & G3 & _).
  assert (ES : exists f' o, sf_step fuel s f m ts = Ok (f', o)).
  { unfold sf_step. unfold ped_step in E2. rewrite E1 in *. cbn [bind] in *. rewrite E2. cbn [bind]. rewrite E3. cbn [bind].
    destruct (if s_calcaz s then _ else _) as [az azv]. destruct ss; eauto. }
  destruct ES as (f' & o & ES). exists f', o. split; [exact ES|].
  destruct (sf_step_spec _ _ _ _ _ ES) as (ss' & Q1 & Q2 & Q3 & Q4 & Q5 & Q6).
  rewrite E2 in Q1. injection Q1 as Ep <-. rewrite E3 in Q2. injection Q2 as Ec.
  assert (G2' : ped_real (sf_ped f')) by (rewrite <- Ep; eapply step_real; eauto).
  assert (G1' : cf_good (sf_cf f')) by (rewrite <- Ec; exact G3).
  destruct (@fused_real f' G1') as (y & Ey & Ry). rewrite Ey, rx_opp, Ropp_involutive in Q3.
  destruct Q6 as [(-> & _ & _ & _ & D1 & D2 & _ & D4)|(Hss & _ & _ & _ & D1 & D2 & _ & D4)].
  - split; [constructor; auto; rewrite D4; eauto|]. split; [exists 0; rewrite D1, rx_f0; split; [reflexivity|lra]|].
    split; [eauto|]. exists 0. rewrite D2. reflexivity.
  - split; [constructor; auto; rewrite D4; eauto|]. split; [|split; [eauto|rewrite D2, Q3, Hh, rx_sub; eauto]].
    destruct HS as [(_ & -> & _)|(_ & _ & [(-> & _)|(l & prev & cur & Em & Em1 & _ & _ & -> & _)])]; [congruence..|].
    assert (Hv : Forall has_val (l ++ [prev])) by (rewrite <- Em; exact (pr_mags G2)).
    destruct (@step_length_real cur (rev (l ++ [prev]))) as (win & rest & old & M & n & L & _ & _ & _ & _ & _ & _ & EL & L0 & _).
    + intros EE. apply (f_equal (@List.length _)) in EE. rewrite rev_length, app_length in EE. cbn in EE. lia.
    + apply Forall_rev. exact Hv.
    + rewrite D1. unfold fsum. cbn [fold_left sp_len]. rewrite EL, rx_f0, rx_add, Hk, rx_mul.
      eexists. split; [reflexivity|]. apply Rmult_le_pos; lra.
Qed.

Lemma sf_run_good fuel (s : settings RX) k ms : (3 <= fuel)%nat -> s_stepmult s = (Some k : RX) -> 0 <= k ->
  Forall real_sample (map fst ms) -> forall f, sf_good f -> exists f' os, sf_run fuel s f ms = Ok (f', os) /\ sf_good f' /\
  Forall (fun o => (exists d, mi_dist o = (Some d : RX) /\ 0 <= d) /\ (exists h, mi_head o = (Some h : RX) /\ - PI < h <= PI) /\
    (exists a, mi_dangle o = (Some a : RX))) os.
Proof.
  intros Hf Hk Hk0. induction ms as [|[m ts] t IH]; intros H f G; [exists f, []; auto|]. cbn [sf_run].
  destruct (@sf_step_good fuel s f m ts k Hf Hk Hk0 G (Forall_inv H)) as (f1 & o & -> & G1 & Ho). cbn [bind].
  destruct (IH (Forall_inv_tail H) f1 G1) as (f2 & os & -> & G2 & Hos). cbn [bind]. exists f2, (o :: os). auto.
Qed.
Lemma sf0_good gm ga : sf_good (sf0 gm ga).
Proof. constructor; cbn; [apply cf0_good|exact ped0_real|exists 0; reflexivity]. Qed.
End MotionReal.
