(** C99: how far the estimated vertical of the complementary filter can be off. *)
From Coq Require Import Reals Lra Lia Psatz.
From Verif Require Import Lib NumReal LibR Sensors SaCf Spec_Sensors Spec_SaCf Spec_Tilt Pf_Angle Pf_Cf Pf_SaCf Pf_Tilt.
Local Open Scope list_scope.
Local Open Scope R_scope.
Local Notation x2 x := (Some x : RX).

(** exact accelerometer, gyroscope wrong by at most [ka sin E] per sample in
    any direction: the tilt error stays at most [E], for ever *)
Theorem C99_bounded fuel (k : cfconf RX) (c : sacf RX) u ka ki B E ms w x y z fresh :
  (3 <= fuel)%nat -> k_acc k = x2 ka -> 0 < ka <= 1 -> k_int k = x2 ki -> ki <= 1 / 100000000 ->
  unit3 u -> 0 <= E <= PI -> 0 <= B <= ka * sin E ->
  unit_quat (sc_q c) w x y z -> sc_interr c = v0 -> still_samples u 0 B (sc_gyro c) fresh ms ->
  cos E <= dot3 u (vertical w x y z) -> (fresh = true -> cos (E - 2 * atan (B / 2)) <= dot3 u (vertical w x y z)) ->
  exists c' w' x' y' z', sacf_run fuel k c ms = Ok c' /\ unit_quat (sc_q c') w' x' y' z' /\ cos E <= dot3 u (vertical w' x' y' z').
Proof.
  intros Hf Hka Ka Hki Ki Hu HE HB HU HI HS H0 H1.
  pose proof (@atan_le (B / 2) ltac:(lra)) as A1. pose proof (@sin_lip 0 E ltac:(lra)) as A2. rewrite sin_0 in A2.
  pose proof (@sin_ge_0 E ltac:(lra) ltac:(lra)) as A3.
  destruct (@still_run fuel k u ka ki 0 B E ms Hf Hka Hki Ki Hu ltac:(nra) ltac:(lra) (@corrects_exact ka u B E Hu Ka HE HB)
    (recall c) w x y z fresh HU HI HS H0 H1) as (c' & w' & x' & y' & z' & R1 & R2 & R3).
  exists (forget c'), w', x', y', z'. rewrite <- (forget_recall c), run_forget, R1. auto.
Qed.
Print Assumptions C99_bounded.

(** accelerometer off by up to [A] as well *)
Theorem C99_noise fuel (k : cfconf RX) (c : sacf RX) u ka ki A B E ms w x y z fresh :
  (3 <= fuel)%nat -> k_acc k = x2 ka -> 0 < ka <= 1 -> k_int k = x2 ki -> ki <= 1 / 100000000 ->
  unit3 u -> 0 <= A <= E -> E <= PI / 2 -> 0 <= B -> 2 * atan (B / 2) <= E ->
  cos (E - 2 * atan (B / 2)) <= cos E + ka / (1 + ka * ka / 4) * (cos A - cos E) ->
  unit_quat (sc_q c) w x y z -> sc_interr c = v0 -> still_samples u A B (sc_gyro c) fresh ms ->
  cos E <= dot3 u (vertical w x y z) -> (fresh = true -> cos (E - 2 * atan (B / 2)) <= dot3 u (vertical w x y z)) ->
  exists c' w' x' y' z', sacf_run fuel k c ms = Ok c' /\ unit_quat (sc_q c') w' x' y' z' /\ cos E <= dot3 u (vertical w' x' y' z').
Proof.
  intros Hf Hka Ka Hki Ki Hu HA HE HB HG HC HU HI HS H0 H1.
  pose proof (@atan_le (B / 2) ltac:(lra)) as A1. pose proof PI_RGT_0 as P.
  assert (C1 : 0 <= cos E) by (apply cos_ge_0; lra). assert (C2 : cos E <= cos A) by (apply cos_mono; lra).
  destruct (@still_run fuel k u ka ki A B E ms Hf Hka Hki Ki Hu ltac:(lra) ltac:(lra) (@corrects_noisy ka u A E _ Ka C1 C2 HC)
    (recall c) w x y z fresh HU HI HS H0 H1) as (c' & w' & x' & y' & z' & R1 & R2 & R3).
  exists (forget c'), w', x', y', z'. rewrite <- (forget_recall c), run_forget, R1. auto.
Qed.
Print Assumptions C99_noise.

(** the bound is attained: a gyroscope that is always wrong by [ka sin E]
    keeps the tilt error at [E], and the filter never notices *)
Theorem C99_attained fuel (k : cfconf RX) (c : sacf RX) ka ki g rate d E n :
  k_acc k = x2 ka -> k_int k = x2 ki -> ki <= 1 / 100000000 -> / IZR (2 ^ 52) < g -> (0 < d)%Z -> (0 <= sc_gyro c)%Z ->
  sc_interr c = v0 -> sc_q c = mkQ (x2 (cos (E / 2))) (x2 0) (x2 (sin (E / 2))) (x2 0) -> rate * (IZR d / 1000) = ka * sin E ->
  exists c', sacf_run fuel k c (biased g rate d (sc_gyro c) n) = Ok c' /\ sc_q c' = sc_q c /\
    dot3 (0, 0, 1) (vertical (cos (E / 2)) 0 (sin (E / 2)) 0) = cos E.
Proof.
  intros Hka Hki Ki Hg Hd Hc HI HQ HB.
  destruct (@biased_run fuel k ka ki g rate d n Hka Hki Ki Hg Hd (recall c) (E / 2) Hc HI HQ) as (c' & R1 & R2).
  exists (forget c'). cbn [recall cf_gyro] in R1. split; [rewrite <- (forget_recall c) at 1; rewrite run_forget, R1; reflexivity|].
  split.
  - cbn [forget sc_q]. rewrite R2, HB, half_fixed. symmetry. exact HQ.
  - rewrite pitch_vertical. replace (2 * (E / 2)) with E by field. unfold dot3. ring.
Qed.
Print Assumptions C99_attained.

(** a gyroscope that is wrong by more than the gain per sample: the level
    device is taken to stand on its edge or beyond, from the initial state *)
Theorem C99_turns_over fuel (k : cfconf RX) tm ta ka ki g rate d T :
  k_acc k = x2 ka -> k_int k = x2 ki -> ki <= 1 / 100000000 -> / IZR (2 ^ 52) < g -> (0 < d)%Z -> (0 <= T)%Z ->
  0 <= ka < rate * (IZR d / 1000) ->
  exists n c w x y z, sacf_run fuel k (sacf0 tm ta)
      (mkSt (mkSensor GYROSCOPE (mkV (x2 0) (x2 rate) (x2 0))) T :: biased g rate d T n) = Ok c /\
    unit_quat (sc_q c) w x y z /\ dot3 (0, 0, 1) (vertical w x y z) <= 0.
Proof.
  intros Hka Hki Ki Hg Hd HT HB. destruct (half_turns_over HB) as (n & Hn). exists n. cbn [sacf_run].
  set (m := mkSt _ T). set (c0 := cf0 (mkSt (mkSensor tm v0) (-1)) (mkSt (mkSensor ta v0) (-1)) : cfilter RX).
  change (sacf0 tm ta) with (forget c0). rewrite update_forget. unfold cf_update. cbn [m s_type st_data bind s_val st_ts].
  match goal with |- context [forget ?cc] => set (c1 := cc) end.
  assert (Q : cf_q c1 = pitch_quat 0).
  { subst c1. cbn [cf_q]. change (cf_gyro c0 =? -1)%Z with true. cbv iota. rewrite Z.sub_diag.
    change (cf_interr c0) with (v0 : vec3 RX). unfold v_add, v_scale, v0. cbn [vx vy vz].
    rewrite !rx_ofZ, rx_div by lra. rewrite rx_f0. repeat (rewrite rx_mul || rewrite rx_add).
    replace (0 * (0 / 1000) + 0 * (0 / 1000)) with 0 by field. replace (rate * (0 / 1000) + 0 * (0 / 1000)) with 0 by field.
    assert (HQ : cf_q c0 = pitch_quat 0) by (unfold pitch_quat; rewrite cos_0, sin_0; reflexivity).
    rewrite HQ. exact (update_zero (pitch_unit 0)). }
  destruct (@biased_run fuel k ka ki g rate d n Hka Hki Ki Hg Hd c1 0 HT eq_refl Q) as (c' & R1 & R2).
  exists (forget c'), (cos (Nat.iter n (half_step ka (rate * (IZR d / 1000))) 0)), 0, (sin (Nat.iter n (half_step ka (rate * (IZR d / 1000))) 0)), 0.
  split; [|split].
  - rewrite run_forget. change T with (cf_gyro c1) at 1. rewrite R1. reflexivity.
  - cbn [forget sc_q]. rewrite R2. apply pitch_unit.
  - rewrite pitch_vertical. unfold dot3. lra.
Qed.
Print Assumptions C99_turns_over.

(** complementary_filter_test.cpp, staticTilt: with noise of any shape, up to
    0.01 rad in the direction of the accelerometer and up to 0.02 rad/s in the
    gyroscope, the checks of the test hold for every length of the run *)
Theorem C99_static_tilt fuel tm ta t l : (3 <= fuel)%nat -> (0 <= t)%Z ->
  Forall (fun s : vec3 RX * vec3 RX * vec3 RX => let '(a, g, m) := s in points_near (0, 0, 1) (1 / 100) a /\
    (exists p q r, real_vec g p q r /\ norm3 p q r <= 1 / 50) /\ (exists p q r, real_vec m p q r)) l ->
  exists c roll pitch yaw ts, sacf_run fuel sacf_gains (sacf0 tm ta) (test_samples t l) = Ok c /\
    fused_orientation c = (x2 roll, x2 pitch, x2 yaw, ts) /\
    Rabs roll < PI * 1 / 180 /\ Rabs (pitch - 0) < PI * 1 / 180.
Proof.
  intros Hf Ht HL. pose proof PI2_1 as P.
  assert (K : k_acc (sacf_gains : cfconf RX) = x2 (1 / 10)) by (unfold sacf_gains; cbn [k_acc]; rewrite rx_lit by lra; reflexivity).
  assert (SS : forall l t last fresh, (0 <= t)%Z -> last = (-1)%Z \/ last = (t - 10)%Z -> Forall (fun s : vec3 RX * vec3 RX * vec3 RX =>
    let '(a, g, m) := s in points_near (0, 0, 1) (1 / 100) a /\
    (exists p q r, real_vec g p q r /\ norm3 p q r <= 1 / 50) /\ (exists p q r, real_vec m p q r)) l ->
    still_samples (0, 0, 1) (1 / 100) (1 / 5000) last fresh (test_samples t l)).
  { clear. induction l as [|[[a g] m] l IH]; intros t last fresh Ht Hl H; [exact I|].
    destruct (Forall_inv H) as (H1 & (p & q & r & H2 & H3) & H4). cbn [test_samples still_samples st_data s_type s_val st_ts].
    split; [exact H1|]. split; [|split; [left; reflexivity|split; [exact H4|split; [lia|]]]].
    - exists p, q, r. split; [exact H2|]. apply Rle_trans with (1 / 50 * (10 / 1000)); [|lra].
      apply Rmult_le_compat; [apply norm3_pos|apply Rabs_pos|exact H3|]. unfold seconds. cbn [st_ts].
      destruct (Z.eqb_spec last (-1)) as [E|E].
      + rewrite Z.sub_diag. rewrite Rabs_right; lra.
      + destruct Hl as [Hl|Hl]; [contradiction|]. replace (t - last)%Z with 10%Z by lia. rewrite Rabs_right; lra.
    - apply IH; [lia|right; lia|exact (Forall_inv_tail H)]. }
  pose proof (@atan_le (1 / 5000 / 2) ltac:(lra)) as A1.
  destruct (@C99_noise fuel sacf_gains (sacf0 tm ta) (0, 0, 1) (1 / 10) 0 (1 / 100) (1 / 5000) (1 / 60) (test_samples t l) 1 0 0 0 true)
    as (c & w & x & y & z & R1 & [Rq HU] & R3); try lra; auto.
  - unfold unit3, dot3. ring.
  - exact test_numbers.
  - split; [reflexivity|ring].
  - unfold vertical, dot3, r31, r32, r33. pose proof (COS_bound (1 / 60)). lra.
  - intros _. unfold vertical, dot3, r31, r32, r33. pose proof (COS_bound (1 / 60 - 2 * atan (1 / 5000 / 2))). lra.
  - destruct (euler_real HU) as (roll & pitch & yaw & E1 & B1 & B2 & B3 & _ & _ & _ & _ & E33).
    exists c, roll, pitch, yaw, (sc_cur c). split; [exact R1|]. split.
    { unfold fused_orientation. unfold real_quat in Rq. rewrite Rq, E1. reflexivity. }
    unfold vertical, dot3 in R3. rewrite E33 in R3.
    destruct (@level_angles roll pitch (1 / 60)) as [L1 L2]; try lra. rewrite Rminus_0_r.
    pose proof PI_4 as P4. pose proof PI2_3_2 as P5. lra.
Qed.
Print Assumptions C99_static_tilt.

(** A level device, the estimate tilted by one degree; gains of the code, a
    gyroscope that shows 0.1 rad/s about an axis of its own, every 10 ms *)
Definition ex_acc (t : Z) : stamped (sensor RX) := mkSt (mkSensor ACCELEROMETER (mkV (x2 0) (x2 0) (x2 9))) t.
Definition ex_gyr (t : Z) : stamped (sensor RX) := mkSt (mkSensor GYROSCOPE (mkV (x2 (6 / 100)) (x2 (8 / 100)) (x2 0))) t.
Definition ex_mag (t : Z) : stamped (sensor RX) := mkSt (mkSensor MAGNETOMETER (mkV (x2 3) (x2 0) (x2 4))) t.
Lemma ex_norm : norm3 (6 / 100) (8 / 100) 0 = 1 / 10.
Proof. unfold norm3. replace (6 / 100 * (6 / 100) + 8 / 100 * (8 / 100) + 0 * 0) with (Rsqr (1 / 10)) by (unfold Rsqr; field). apply sqrt_Rsqr. lra. Qed.
Lemma ex_near A : points_near (0, 0, 1) A (mkV (x2 0) (x2 0) (x2 9)).
Proof.
  exists 0, 0, 9. assert (N : norm3 0 0 9 = 9) by (unfold norm3; replace (0 * 0 + 0 * 0 + 9 * 9) with (Rsqr 9) by (unfold Rsqr; ring); apply sqrt_Rsqr; lra).
  split; [reflexivity|]. unfold direction. rewrite N. split; [pose proof feps_small; lra|]. unfold dot3. pose proof (COS_bound A). lra.
Qed.
Example C99_example : still_samples (0, 0, 1) 0 (1 / 1000) (-1) false [ex_acc 1000; ex_gyr 1000; ex_mag 1000; ex_acc 1010; ex_gyr 1010; ex_mag 1010; ex_acc 1015; ex_acc 1020; ex_gyr 1020] /\
  0 <= 1 / 1000 <= 1 / 10 * sin (1 / 60) /\ unit3 (0, 0, 1) /\
  k_acc (sacf_gains : cfconf RX) = x2 (1 / 10) /\ k_int (sacf_gains : cfconf RX) = x2 0 /\
  unit_quat (sc_q (sacf0 GYROSCOPE GYROSCOPE : sacf RX)) 1 0 0 0 /\ cos (1 / 60) <= dot3 (0, 0, 1) (vertical 1 0 0 0).
Proof.
  split.
  { cbn [still_samples ex_acc ex_gyr ex_mag s_type st_data s_val st_ts].
    assert (G : forall last t, (last = -1)%Z \/ (t - last = 10)%Z ->
      exists a b d, real_vec (mkV (x2 (6 / 100)) (x2 (8 / 100)) (x2 0)) a b d /\ norm3 a b d * Rabs (seconds last (ex_gyr t)) <= 1 / 1000).
    { intros last t H. exists (6 / 100), (8 / 100), 0. split; [reflexivity|]. rewrite ex_norm. unfold seconds. cbn [st_ts ex_gyr].
      destruct (Z.eqb_spec last (-1)); [rewrite Z.sub_diag, Rabs_right; lra|]. destruct H as [H|H]; [contradiction|]. rewrite H, Rabs_right; lra. }
    repeat match goal with
    | |- _ /\ _ => split
    | |- points_near _ _ _ => apply ex_near
    | |- real_sample _ => do 3 eexists; reflexivity
    | |- exists a b d, _ => apply G; lia
    | |- True => exact I
    end; try (left; reflexivity); try discriminate; try lia. }
  split.
  { pose proof PI2_1 as P. pose proof (@sin_low (1 / 60) ltac:(lra)) as S1. pose proof (cos_low (1 / 60)). lra. }
  split; [unfold unit3, dot3; ring|]. split; [unfold sacf_gains; cbn [k_acc]; rewrite rx_lit by lra; reflexivity|]. split; [reflexivity|].
  split; [split; [reflexivity|ring]|]. unfold vertical, dot3, r31, r32, r33. pose proof (COS_bound (1 / 60)). lra.
Qed.
(** at one sample per second, 0.11 rad/s turns the estimate over *)
Example C99_turns_example : 0 <= 1 / 10 < 11 / 100 * (IZR 1000 / 1000) /\ / IZR (2 ^ 52) < 9 /\ (0 < 1000)%Z.
Proof. split; [lra|]. split; [pose proof feps_small; lra|lia]. Qed.
Example C99_attained_example : 1 / 10 * (1 / 2) = 5 * (IZR 10 / 1000) /\ sin (PI / 6) = 1 / 2 /\ biased 9 5 10 1000 1 =
  [ex_acc 1010; mkSt (mkSensor GYROSCOPE (mkV (x2 0) (x2 5) (x2 0))) 1010].
Proof. split; [field|]. split; [apply sin_PI6|reflexivity]. Qed.
Example C99_static_example : Forall (fun s : vec3 RX * vec3 RX * vec3 RX => let '(a, g, m) := s in points_near (0, 0, 1) (1 / 100) a /\
    (exists p q r, real_vec g p q r /\ norm3 p q r <= 1 / 50) /\ (exists p q r, real_vec m p q r))
  [(mkV (x2 0) (x2 0) (x2 9), mkV (x2 (6 / 1000)) (x2 (8 / 1000)) (x2 0), mkV (x2 3) (x2 0) (x2 4))].
Proof.
  apply Forall_cons; [|apply Forall_nil]. split; [apply ex_near|]. split; [|do 3 eexists; reflexivity].
  exists (6 / 1000), (8 / 1000), 0. split; [reflexivity|]. unfold norm3.
  replace (6 / 1000 * (6 / 1000) + 8 / 1000 * (8 / 1000) + 0 * 0) with (Rsqr (1 / 100)) by (unfold Rsqr; field). rewrite sqrt_Rsqr; lra.
Qed.
