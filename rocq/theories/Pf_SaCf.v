(** Proofs for the stand-alone complementary filter. *)
From Coq Require Import Reals Lra Lia Psatz.
From Verif Require Import Lib NumReal LibR Sensors SaCf Spec_Sensors Spec_SaCf Pf_Angle Pf_Cf.
Set Implicit Arguments.
Local Open Scope list_scope.

Section P.
Context {F : Type} {NF : Num F}.

(** * Refinement *)
Lemma update_forget fuel k (c : cfilter F) m :
  sacf_update fuel k (forget c) m = c1 <- cf_update fuel k c m ;; Ok (forget c1).
Proof.
  unfold sacf_update, cf_update, sacf_accel, sacf_gyro, sacf_magnet, sacf_stamp, forget.
  destruct (s_type (st_data m)); cbn [bind sc_cur sc_gyro sc_interr sc_q sc_magaz sc_devaz sc_magn sc_acc]; try reflexivity.
  destruct (cf_gyro c =? -1)%Z.
  - match goal with |- context [if ?b then _ else _] => destruct b end; cbn [sc_cur sc_gyro sc_interr sc_q sc_magaz sc_devaz sc_magn sc_acc];
      match goal with |- context [magnetic_azimuth fuel ?q ?v] => destruct (magnetic_azimuth fuel q v) end; reflexivity.
  - cbn [sc_cur sc_gyro sc_interr sc_q sc_magaz sc_devaz sc_magn sc_acc].
    match goal with |- context [magnetic_azimuth fuel ?q ?v] => destruct (magnetic_azimuth fuel q v) end; reflexivity.
Qed.
Lemma run_forget fuel k ms : forall (c : cfilter F),
  sacf_run fuel k (forget c) ms = c1 <- cf_run fuel k c ms ;; Ok (forget c1).
Proof.
  induction ms as [|m t IH]; intros c; cbn [sacf_run cf_run]; [reflexivity|]. rewrite update_forget.
  destruct (cf_update fuel k c m) as [c1| | |]; cbn [bind]; [apply IH|reflexivity..].
Qed.
(** every stand-alone state comes from one of the core *)
Definition recall (c : sacf F) : cfilter F :=
  mkCF (sc_cur c) (sc_gyro c) (-1) (sc_interr c) (sc_q c) (sc_magaz c) (sc_devaz c) f0 (sc_magn c) (sc_acc c).
Lemma forget_recall c : forget (recall c) = c.
Proof. destruct c; reflexivity. Qed.

(** * What the estimate depends on *)
Lemma update_inertial fuel k (c c' : sacf F) m : sacf_update fuel k c m = Ok c' -> (sc_gyro c <> -1)%Z -> inertial m = false ->
  sc_q c' = sc_q c /\ sc_interr c' = sc_interr c /\ sc_gyro c' = sc_gyro c.
Proof.
  unfold sacf_update, inertial, sacf_stamp. intros E Hg Hi. destruct (s_type (st_data m)); try discriminate Hi; cbn [sc_gyro] in E.
  - rewrite (proj2 (Z.eqb_neq _ _) Hg) in E. inv_bind E. injection Hb as <-. auto.
  - injection E as <-. auto.
  - injection E as <-. auto.
  - injection E as <-. auto.
Qed.
Lemma update_same fuel k (c d c' d' : sacf F) m : sc_q c = sc_q d -> sc_interr c = sc_interr d -> sc_gyro c = sc_gyro d ->
  sacf_update fuel k c m = Ok c' -> sacf_update fuel k d m = Ok d' ->
  sc_q c' = sc_q d' /\ sc_interr c' = sc_interr d' /\ sc_gyro c' = sc_gyro d'.
Proof.
  intros H1 H2 H3. unfold sacf_update, sacf_accel, sacf_gyro, sacf_magnet, sacf_stamp.
  destruct (s_type (st_data m)); cbn [sc_cur sc_gyro sc_interr sc_q sc_magaz sc_devaz sc_magn sc_acc]; rewrite ?H1, ?H2, ?H3; intros E E';
    try (injection E as <-; injection E' as <-; cbn; auto; fail).
  inv_bind E. inv_bind E'. injection Hb as <-. injection Hb0 as <-. cbn [sc_cur sc_gyro sc_interr sc_q sc_magaz sc_devaz sc_magn sc_acc].
  destruct (sc_gyro d =? -1)%Z; [|cbn; auto]. destruct (v_mag _ <! cf_eps); cbn; auto.
Qed.
Lemma update_gyro fuel k (c c' : sacf F) m : sacf_update fuel k c m = Ok c' ->
  (is_gyro m = true -> st_ts m <> (-1)%Z) -> (sc_gyro c <> -1)%Z \/ is_gyro m = true -> (sc_gyro c' <> -1)%Z.
Proof.
  unfold sacf_update, is_gyro, sacf_accel, sacf_gyro, sacf_magnet, sacf_stamp. intros E Ht H.
  destruct (s_type (st_data m)); cbn [sc_gyro] in E.
  - injection E as <-. cbn. destruct H; [auto|discriminate].
  - inv_bind E. injection Hb as <-. cbn [sc_gyro]. destruct H as [H|H]; [|discriminate]. rewrite (proj2 (Z.eqb_neq _ _) H). exact H.
  - injection E as <-. cbn [sc_gyro]. auto.
  - injection E as <-. cbn. destruct H; [auto|discriminate].
  - injection E as <-. cbn. destruct H; [auto|discriminate].
  - injection E as <-. cbn. destruct H; [auto|discriminate].
Qed.

Lemma run_inertial fuel k ms : forall (c d c' d' : sacf F),
  Forall (fun m => is_gyro m = true -> st_ts m <> (-1)%Z) ms -> (sc_gyro c <> -1)%Z ->
  sc_q c = sc_q d -> sc_interr c = sc_interr d -> sc_gyro c = sc_gyro d ->
  sacf_run fuel k c ms = Ok c' -> sacf_run fuel k d (filter inertial ms) = Ok d' ->
  sc_q c' = sc_q d' /\ sc_interr c' = sc_interr d' /\ sc_gyro c' = sc_gyro d'.
Proof.
  induction ms as [|m t IH]; intros c d c' d' HT Hg H1 H2 H3 E E'; cbn [sacf_run filter] in *.
  - injection E as <-. injection E' as <-. auto.
  - inv_bind E. destruct (inertial m) eqn:Hi.
    + cbn [sacf_run] in E'. inv_bind E'. destruct (@update_same fuel k c d a a0 m H1 H2 H3 Ha Ha0) as (K1 & K2 & K3).
      apply (IH a a0 c' d'); auto; [exact (Forall_inv_tail HT)|]. exact (@update_gyro fuel k c a m Ha (Forall_inv HT) (or_introl Hg)).
    + destruct (@update_inertial fuel k c a m Ha Hg Hi) as (K1 & K2 & K3).
      apply (IH a d c' d'); auto; try congruence. exact (Forall_inv_tail HT).
Qed.
Lemma run_app fuel k ms ns : forall (c : sacf F), sacf_run fuel k c (ms ++ ns) = c1 <- sacf_run fuel k c ms ;; sacf_run fuel k c1 ns.
Proof.
  induction ms as [|m t IH]; intros c; cbn [sacf_run app]; [reflexivity|].
  destruct (sacf_update fuel k c m); cbn [bind]; [apply IH|reflexivity..].
Qed.
Lemma run_cur fuel k ms : forall (c c' : sacf F) m, sacf_run fuel k c (ms ++ [m]) = Ok c' -> sc_cur c' = st_ts m.
Proof.
  intros c c' m E. rewrite run_app in E. inv_bind E. cbn [sacf_run] in Hb. inv_bind Hb. injection Hb0 as <-.
  unfold sacf_update, sacf_stamp in Ha0. destruct (s_type (st_data m)); try (injection Ha0 as <-; reflexivity).
  inv_bind Ha0. injection Hb as <-. reflexivity.
Qed.
End P.

Local Open Scope R_scope.
Local Notation x2 x := (Some x : RX).

(** * Device at rest *)
Lemma int_error_none (k : cfconf RX) ki err : k_int k = x2 ki -> ki <= 1 / 100000000 -> int_error k v0 err = v0.
Proof.
  intros H L. unfold int_error, cf_eps. rewrite H, rx_lit, rx_ltb by lra.
  destruct (Rltb _ _) eqn:E; [apply Rltb_true in E; lra|]. unfold v_add, v0. cbn [vx vy vz]. rewrite rx_f0, rx_add, Rplus_0_r. reflexivity.
Qed.
Lemma update_zero q w x y z : unit_quat q w x y z -> update_quaternion q (mkV (x2 0) (x2 0) (x2 0)) = q.
Proof.
  intros [-> H]. pose proof (@update_quaternion_real w x y z 0 0 0 H) as U. unfold grow in U. cbv zeta beta iota in U.
  destruct U as (_ & _ & _ & E). rewrite E. replace (1 + (0 * 0 + 0 * 0 + 0 * 0) / 4) with 1 by field. rewrite sqrt_1.
  f_equal; f_equal; field.
Qed.
Lemma decay_bound ka C c0 : 0 < ka < 2 -> -1 <= C <= 1 -> -1 < c0 <= C ->
  let C' := C + ka * (1 - C * C) * (1 - ka / 2 * C) / (1 + ka * ka / 4 * (1 - C * C)) in
  1 - C' <= decay ka c0 * (1 - C).
Proof.
  intros Hk HC H0. cbv zeta. unfold decay.
  set (D := 1 + ka * ka / 4 * (1 - C * C)). set (E := 1 + ka * ka / 4).
  assert (Hq : 0 <= 1 - C * C <= 1) by nra. assert (HD : 1 <= D <= E) by (subst D E; nra).
  assert (G : ka * (1 + c0) * (1 - ka / 2) / E <= ka * (1 + C) * (1 - ka / 2 * C) / D).
  { assert (A1 : 0 <= ka * (1 + c0) * (1 - ka / 2)) by (apply Rmult_le_pos; [nra|lra]).
    assert (A2 : ka * (1 + c0) * (1 - ka / 2) <= ka * (1 + C) * (1 - ka / 2 * C)).
    { apply Rmult_le_compat; [nra|lra|nra|nra]. }
    unfold Rdiv. apply Rmult_le_compat; [lra| |lra|].
    - left. apply Rinv_0_lt_compat. lra.
    - apply Rinv_le_contravar; lra. }
  replace (ka * (1 - C * C) * (1 - ka / 2 * C) / D) with (ka * (1 + C) * (1 - ka / 2 * C) / D * (1 - C)) by (field; lra).
  nra.
Qed.
Lemma decay_range ka c0 : 0 < ka < 2 -> -1 < c0 <= 1 -> 0 <= decay ka c0 < 1.
Proof.
  intros Hk H0. unfold decay. assert (HE : 1 < 1 + ka * ka / 4) by nra.
  assert (P : 0 < ka * (1 + c0) * (1 - ka / 2) / (1 + ka * ka / 4)).
  { apply Rmult_lt_0_compat; [|apply Rinv_0_lt_compat; lra]. apply Rmult_lt_0_compat; [nra|lra]. }
  split; [|lra].
  assert (ka * (1 + c0) * (1 - ka / 2) / (1 + ka * ka / 4) <= 1); [|lra].
  apply (Rmult_le_reg_r (1 + ka * ka / 4)); [lra|]. unfold Rdiv at 1. rewrite Rmult_assoc, Rinv_l by lra.
  assert (ka * (1 + c0) * (1 - ka / 2) <= ka * 2 * (1 - ka / 2)).
  2:{ pose proof (Rle_0_sqr (1 - ka)) as Q. unfold Rsqr in Q. nra. }
  apply Rmult_le_compat_r; [lra|]. nra.
Qed.

Lemma rest_run fuel (k : cfconf RX) u ka ki c0 ms : (3 <= fuel)%nat -> real_gains k -> k_acc k = x2 ka -> 0 < ka < 2 ->
  k_int k = x2 ki -> ki <= 1 / 100000000 -> -1 < c0 -> Forall (at_rest u) ms -> forall (c : cfilter RX) w x y z running,
  unit_quat (cf_q c) w x y z -> cf_interr c = v0 -> (running = true -> (cf_gyro c <> -1)%Z) -> gyro_first running ms ->
  c0 <= dot3 u (vertical w x y z) ->
  exists c' w' x' y' z', cf_run fuel k c ms = Ok c' /\ unit_quat (cf_q c') w' x' y' z' /\ cf_interr c' = v0 /\
    dot3 u (vertical w x y z) <= dot3 u (vertical w' x' y' z') /\
    1 - dot3 u (vertical w' x' y' z') <= decay ka c0 ^ count_acc ms * (1 - dot3 u (vertical w x y z)).
Proof.
  intros Hf Hg Hka Ka Hki Ki H0. induction ms as [|m t IH]; intros HR c w x y z running HU HI Hrun HG HC.
  - exists c, w, x, y, z. split; [reflexivity|]. split; [exact HU|]. split; [exact HI|]. split; [lra|]. cbn. lra.
  - cbn [gyro_first] in HG. destruct HG as (G1 & G2 & G3). pose proof (Forall_inv HR) as Hm. unfold at_rest in Hm.
    cbn [cf_run]. unfold count_acc. cbn [filter].
    assert (Other : forall c1, cf_update fuel k c m = Ok c1 -> cf_q c1 = cf_q c -> cf_interr c1 = v0 ->
      (running || is_gyro m = true -> (cf_gyro c1 <> -1)%Z) -> is_acc m = false ->
      exists c' w' x' y' z', (c2 <- cf_update fuel k c m ;; cf_run fuel k c2 t) = Ok c' /\ unit_quat (cf_q c') w' x' y' z' /\ cf_interr c' = v0 /\
        dot3 u (vertical w x y z) <= dot3 u (vertical w' x' y' z') /\
        1 - dot3 u (vertical w' x' y' z') <= decay ka c0 ^ List.length (if is_acc m then m :: filter is_acc t else filter is_acc t) * (1 - dot3 u (vertical w x y z))).
    { intros c1 E1 Eq Ei Er Ea. rewrite E1, Ea. cbn [bind]. rewrite <- Eq in HU.
      exact (IH (Forall_inv_tail HR) c1 w x y z _ HU Ei Er G3 HC). }
    destruct (s_type (st_data m)) eqn:Et.
    + (* accelerometer *)
      clear Other. destruct Hm as (a & b & d & Hv & Hn & <-).
      assert (E1 : exists c1, cf_update fuel k c m = Ok c1) by (unfold cf_update; rewrite Et; eauto). destruct E1 as (c1 & E1).
      assert (Ga : is_acc m = true) by (unfold is_acc; rewrite Et; reflexivity).
      assert (Gg : is_gyro m = false) by (unfold is_gyro; rewrite Et; reflexivity). rewrite Ga. rewrite E1. cbn [bind].
      destruct (@gravity fuel k c m c1 w x y z a b d ka Et Hv Hn HU Hka Ka E1) as (w1 & x1 & y1 & z1 & U1 & HC1 & HC1' & Hle & _ & EC).
      cbv zeta in *. fold (direction a b d) in *. set (C := dot3 _ (vertical w x y z)) in *. set (C1 := dot3 _ (vertical w1 x1 y1 z1)) in *.
      assert (EI : cf_interr c1 = v0 /\ cf_gyro c1 = cf_gyro c).
      { unfold cf_update in E1. rewrite Et in E1. injection E1 as <-. cbn [cf_interr cf_gyro]. rewrite HI. split; [|reflexivity].
        eapply int_error_none; eauto. }
      rewrite Gg, orb_false_r in G3.
      destruct (IH (Forall_inv_tail HR) c1 w1 x1 y1 z1 running U1 (proj1 EI)) as (c' & w' & x' & y' & z' & R1 & R2 & R3 & R4 & R5).
      * intros Hr. rewrite (proj2 EI). auto.
      * exact G3.
      * fold C1. lra.
      * exists c', w', x', y', z'. split; [exact R1|]. split; [exact R2|]. split; [exact R3|]. fold C1 in R4, R5.
        split; [lra|]. cbn [List.length pow]. unfold count_acc in R5.
        pose proof (@decay_bound ka C c0 Ka HC1 (conj H0 HC)) as DB. cbv zeta in DB.
        pose proof (@decay_range ka c0 Ka ltac:(lra)) as DR.
        assert (P : 0 <= decay ka c0 ^ List.length (filter is_acc t)) by (apply pow_le; lra).
        replace (C + ka * (1 - C * C) * (1 - ka / 2 * C) / (1 + ka * ka / 4 * (1 - C * C))) with C1 in DB by lra.
        nra.
    + (* magnetometer *)
      assert (Gm : is_mag m = true) by (unfold is_mag; rewrite Et; reflexivity). specialize (Hrun (G1 Gm)).
      assert (Gg : is_gyro m = false) by (unfold is_gyro; rewrite Et; reflexivity).
      destruct (@azimuth_ok fuel (cf_q c) (s_val (st_data m)) Hf) as (A & EA & _); [do 4 eexists; exact HU|exact Hm|].
      eapply Other.
      * unfold cf_update. rewrite Et. rewrite (proj2 (Z.eqb_neq _ _) Hrun). rewrite EA. cbn [bind]. reflexivity.
      * reflexivity.
      * exact HI.
      * intros _. exact Hrun.
      * unfold is_acc. rewrite Et. reflexivity.
    + (* gyroscope *)
      assert (Gg : is_gyro m = true) by (unfold is_gyro; rewrite Et; reflexivity).
      eapply Other.
      * unfold cf_update. rewrite Et. reflexivity.
      * cbn [cf_q]. unfold real_vec in Hm. rewrite Hm, HI. unfold v_add, v_scale, v0. cbn [vx vy vz].
        rewrite !rx_ofZ, rx_div by lra. rewrite rx_f0. repeat (rewrite rx_mul || rewrite rx_add). rewrite !Rmult_0_l, Rplus_0_r.
        eapply update_zero. exact HU.
      * exact HI.
      * intros _. cbn [cf_gyro]. exact (G2 Gg).
      * unfold is_acc. rewrite Et. reflexivity.
    + eapply Other; [unfold cf_update; rewrite Et; reflexivity|reflexivity|exact HI| |unfold is_acc; rewrite Et; reflexivity].
      unfold is_gyro. rewrite Et, orb_false_r. exact Hrun.
    + eapply Other; [unfold cf_update; rewrite Et; reflexivity|reflexivity|exact HI| |unfold is_acc; rewrite Et; reflexivity].
      unfold is_gyro. rewrite Et, orb_false_r. exact Hrun.
    + eapply Other; [unfold cf_update; rewrite Et; reflexivity|reflexivity|exact HI| |unfold is_acc; rewrite Et; reflexivity].
      unfold is_gyro. rewrite Et, orb_false_r. exact Hrun.
Qed.

(** the number of samples that make the misalignment small *)
Lemma decay_small ka c0 e : 0 < ka < 2 -> -1 < c0 <= 1 -> 0 < e ->
  exists N, forall n, (N <= n)%nat -> decay ka c0 ^ n * 2 < e.
Proof.
  intros Hk H0 He. pose proof (@decay_range ka c0 Hk H0) as D.
  destruct (pow_lt_1_zero (decay ka c0)) with (y := e / 2) as (N & HN); [rewrite Rabs_right; lra|lra|].
  exists N. intros n Hn. specialize (HN n Hn). rewrite Rabs_right in HN; [lra|]. apply Rle_ge, pow_le. lra.
Qed.

Lemma tilt_angles roll pitch theta rho e : 0 < e -> e <= 1 ->
  - (PI / 2) <= pitch <= PI / 2 -> - (PI / 2) < theta < PI / 2 ->
  let C := sin theta * sin pitch + cos theta * cos pitch * cos (roll - rho) in
  1 - C < (1 - cos e) -> 1 - C < e * (cos theta * cos theta) / 4 -> 1 - C < cos theta * cos theta / 8 ->
  Rabs (pitch - theta) < e /\ 1 - e < cos (roll - rho).
Proof.
  intros He He1 Hp Ht. cbv zeta. intros H1 H2 H3.
  assert (Hcp : 0 <= cos pitch) by (apply cos_ge_0; lra). assert (Hct : 0 < cos theta) by (apply cos_gt_0; lra).
  set (r := cos (roll - rho)) in *. assert (Hr : -1 <= r <= 1) by apply COS_bound.
  pose proof (sin2_cos2 pitch) as S1. pose proof (sin2_cos2 theta) as S2. unfold Rsqr in S1, S2.
  assert (HA : cos theta * cos pitch * r <= cos theta * cos pitch).
  { rewrite <- (Rmult_1_r (cos theta * cos pitch)) at 2. apply Rmult_le_compat_l; [apply Rmult_le_pos; lra|lra]. }
  assert (CD : cos (pitch - theta) = cos pitch * cos theta + sin pitch * sin theta) by apply cos_minus.
  split.
  - assert (L : cos e < cos (pitch - theta)) by (rewrite CD; lra). pose proof PI2_1 as P1.
    destruct (Rcase_abs (pitch - theta)) as [N|P].
    + rewrite Rabs_left by exact N. apply cos_decreasing_0; try lra. rewrite cos_neg. exact L.
    + rewrite Rabs_right by exact P. apply Rge_le in P. apply cos_decreasing_0; try lra.
  - (* cos pitch >= cos theta / 2 *)
    assert (HB : 1 - (cos pitch * cos theta + sin pitch * sin theta) < cos theta * cos theta / 8) by lra.
    assert (Hd : cos theta / 2 <= cos pitch).
    { destruct (Rle_lt_dec (cos theta / 2) (cos pitch)) as [|Hlt]; [assumption|exfalso].
      assert (Q : 2 * (1 - (cos pitch * cos theta + sin pitch * sin theta)) = (cos pitch - cos theta) * (cos pitch - cos theta) + (sin pitch - sin theta) * (sin pitch - sin theta)) by nra.
      pose proof (Rle_0_sqr (sin pitch - sin theta)) as Q2. unfold Rsqr in Q2. nra. }
    assert (HX : cos theta * cos pitch * (1 - r) < e * (cos theta * cos theta) / 4).
    { pose proof (COS_bound (pitch - theta)) as [_ CB]. rewrite CD in CB. nra. }
    assert (HY : cos theta * (cos theta / 2) * (1 - r) <= cos theta * cos pitch * (1 - r)).
    { apply Rmult_le_compat_r; [lra|]. apply Rmult_le_compat_l; lra. }
    assert (HT : 0 < cos theta * cos theta) by nra. nra.
Qed.
