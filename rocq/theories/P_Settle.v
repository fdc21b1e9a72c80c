(** C101, C102: how fast and how far the tilt estimate of a moving device settles. *)
From Coq Require Import Reals Lra Lia Psatz.
From Verif Require Import Lib NumReal LibR Sensors SaCf SaDemo Spec_Sensors Spec_SaCf Spec_Tilt Spec_Settle Spec_SaDemo
  Pf_Angle Pf_Cf Pf_SaCf Pf_Tilt Pf_Settle Pf_Pendulum NumFloat.
From Verif Require Import Ex.
Local Open Scope list_scope.
Local Open Scope R_scope.
Local Notation x2 x := (Some x : RX).

(** the filter of the navigation core *)
Theorem C101_settles_core fuel (k : cfconf RX) (c : cfilter RX) u ka ki a b d0 ms w x y z :
  (3 <= fuel)%nat -> k_acc k = x2 ka -> 0 < ka <= 1 -> k_int k = x2 ki -> ki <= 1 / 100000000 ->
  0 <= a -> 0 <= b -> residual ka a b <= d0 -> d0 * d0 <= 2 ->
  unit3 u -> unit_quat (cf_q c) w x y z -> cf_interr c = v0 -> dist3 u (vertical w x y z) <= d0 ->
  moving a b u (cf_gyro c) false ms ->
  exists c' w' x' y' z', cf_run fuel k c (map snd ms) = Ok c' /\ unit_quat (cf_q c') w' x' y' z' /\
    dist3 (true_end u ms) (vertical w' x' y' z') <=
    residual ka a b + sqrt (1 - taken ka) ^ gyro_steps (cf_gyro c) ms * (d0 - residual ka a b).
Proof.
  intros Hf Hka Ka Hki Ki Ha Hb Hd Hd2 Hu HU HI HD HM.
  destruct (@moving_run fuel k ka ki a b d0 ms Hf Hka Ka Hki Ki Ha Hb Hd Hd2 c u 0 w x y z false HU HI Hu HM)
    as (c' & w' & x' & y' & z' & R1 & R2 & _ & _ & R5).
  - unfold level_of. cbn [pow]. lra.
  - discriminate.
  - exists c', w', x', y', z'. auto.
Qed.
Print Assumptions C101_settles_core.

(** the stand-alone filter *)
Theorem C101_settles fuel (k : cfconf RX) (c : sacf RX) u ka ki a b d0 ms w x y z :
  (3 <= fuel)%nat -> k_acc k = x2 ka -> 0 < ka <= 1 -> k_int k = x2 ki -> ki <= 1 / 100000000 ->
  0 <= a -> 0 <= b -> residual ka a b <= d0 -> d0 * d0 <= 2 ->
  unit3 u -> unit_quat (sc_q c) w x y z -> sc_interr c = v0 -> dist3 u (vertical w x y z) <= d0 ->
  moving a b u (sc_gyro c) false ms ->
  exists c' w' x' y' z', sacf_run fuel k c (map snd ms) = Ok c' /\ unit_quat (sc_q c') w' x' y' z' /\
    dist3 (true_end u ms) (vertical w' x' y' z') <=
    residual ka a b + sqrt (1 - taken ka) ^ gyro_steps (sc_gyro c) ms * (d0 - residual ka a b).
Proof.
  intros Hf Hka Ka Hki Ki Ha Hb Hd Hd2 Hu HU HI HD HM.
  destruct (@C101_settles_core fuel k (recall c) u ka ki a b d0 ms w x y z) as (c' & w' & x' & y' & z' & R1 & R2 & R3); auto.
  exists (forget c'), w', x', y', z'. split; [rewrite <- (forget_recall c) at 1; rewrite run_forget, R1; reflexivity|]. auto.
Qed.
Print Assumptions C101_settles.

(** the errors of the samples, and at most twice the gyroscope's over the gain *)
Theorem C101_residual ka a b : 0 < ka <= 1 -> 0 <= a -> 0 <= b ->
  0 <= sqrt (1 - taken ka) < 1 /\ a + b <= residual ka a b <= a + 2 * b / taken ka.
Proof.
  intros Hk Ha Hb. pose proof (taken_range Hk) as Ht. split; [apply rho_range; exact Ht|]. split; [apply balance_low; assumption|].
  unfold residual. cbv zeta. set (k := taken ka) in *.
  assert (L : sqrt (b * b + k * (k * (a * a) - b * b)) <= b + k * a).
  { assert (0 <= k * a) by (apply Rmult_le_pos; lra). apply sq_le; [lra|]. rewrite sqrt_sqrt.
    - pose proof (Rmult_le_pos _ _ Hb H). pose proof (Rmult_le_pos _ _ Hb Hb). nra.
    - pose proof (Rle_0_sqr (k * a)). pose proof (Rle_0_sqr b). unfold Rsqr in *. nra. }
  apply (Rmult_le_reg_r k); [lra|]. replace ((a + 2 * b / k) * k) with (k * a + 2 * b) by (field; lra).
  unfold Rdiv. rewrite Rmult_assoc, Rinv_l by lra. lra.
Qed.
Print Assumptions C101_residual.

(** A device that turns by 53 degrees within one second, seen without errors *)
Definition ex_turn : list ((R * R * R) * stamped (sensor RX)) :=
  [((0, 0, 1), mkSt (mkSensor ACCELEROMETER (mkV (x2 0) (x2 0) (x2 9))) 1000);
   ((0, 0, 1), mkSt (mkSensor GYROSCOPE (mkV (x2 0) (x2 1) (x2 0))) 1000);
   ((0, 0, 1), mkSt (mkSensor ACCELEROMETER (mkV (x2 0) (x2 0) (x2 9))) 2000);
   ((- (4 / 5), 0, 3 / 5), mkSt (mkSensor GYROSCOPE (mkV (x2 0) (x2 1) (x2 0))) 2000);
   ((- (4 / 5), 0, 3 / 5), mkSt (mkSensor MAGNETOMETER (mkV (x2 3) (x2 0) (x2 4))) 2000);
   ((- (4 / 5), 0, 3 / 5), mkSt (mkSensor ACCELEROMETER (mkV (x2 (-4)) (x2 0) (x2 3))) 2500)].
Lemma norm_9 : norm3 0 0 9 = 9.
Proof. unfold norm3. replace (0 * 0 + 0 * 0 + 9 * 9) with (9 * 9) by ring. apply sqrt_square. lra. Qed.
Lemma norm_5 : norm3 (-4) 0 3 = 5.
Proof. unfold norm3. replace (-4 * -4 + 0 * 0 + 3 * 3) with (5 * 5) by ring. apply sqrt_square. lra. Qed.
Lemma dist_same u : dist3 u u = 0.
Proof. destruct u as [[a b] c]. unfold dist3, norm3. rewrite !Rminus_diag_eq by reflexivity. rewrite Rmult_0_r, !Rplus_0_r. apply sqrt_0. Qed.
Example C101_example : moving 0 0 (0, 0, 1) (-1) false ex_turn /\ gyro_steps (-1) ex_turn = 1%nat /\ true_end (0, 0, 1) ex_turn = (- (4 / 5), 0, 3 / 5) /\
  residual (1 / 10) 0 0 <= 1 /\ 1 * 1 <= 2 /\ unit3 (0, 0, 1) /\ dist3 (0, 0, 1) (vertical 1 0 0 0) <= 1.
Proof.
  assert (N1 : shows_near (0, 0, 1) 0 (mkV (x2 0) (x2 0) (x2 9))).
  { exists 0, 0, 9. split; [reflexivity|]. unfold direction. rewrite norm_9. split; [pose proof feps_small; lra|].
    replace (0 / 9, 0 / 9, 9 / 9) with (0, 0, 1) by (f_equal; [f_equal|]; field). rewrite dist_same. lra. }
  split.
  { cbn [ex_turn moving s_type st_data s_val st_ts Z.eqb]. split; [exact N1|]. split; [|split; [left; reflexivity|split; [exact N1|]]].
    - exists 0, 1, 0, (0, 0, 1). split; [reflexivity|]. cbv zeta. unfold seconds. cbn [st_ts]. rewrite Z.eqb_refl, Z.sub_diag.
      split; [unfold seen_after, cross3; f_equal; [f_equal|]; field|]. split; [unfold unit3, dot3; ring|reflexivity].
    - split; [|split; [left; reflexivity|]].
      + exists 0, 1, 0, (- (4 / 5), 0, 3 / 5). split; [reflexivity|]. cbv zeta. unfold seconds. cbn [st_ts]. change (1000 =? -1)%Z with false. cbv iota.
        change (2000 - 1000)%Z with 1000%Z. split; [unfold seen_after, cross3; f_equal; [f_equal|]; field|]. split; [unfold unit3, dot3; field|].
        rewrite dist_same. lra.
      + split; [do 3 eexists; reflexivity|]. split; [discriminate|]. split; [|exact I].
        exists (-4), 0, 3. split; [reflexivity|]. unfold direction. rewrite norm_5. split; [pose proof feps_small; lra|].
        replace (-4 / 5, 0 / 5, 3 / 5) with (- (4 / 5), 0, 3 / 5) by (f_equal; f_equal; field). rewrite dist_same. lra. }
  split; [reflexivity|]. split; [reflexivity|].
  split. { pose proof (@C101_residual (1 / 10) 0 0 ltac:(lra) ltac:(lra) ltac:(lra)) as (_ & _ & H). unfold Rdiv in H at 3. lra. }
  split; [lra|]. split; [unfold unit3, dot3; ring|].
  replace (vertical 1 0 0 0) with (0, 0, 1) by (unfold vertical, r31, r32, r33; f_equal; [f_equal|]; ring). rewrite dist_same. lra.
Qed.

(** examples/main.cpp: with accelerometer noise of up to 0.05 m/s^2 per axis
    and gyroscope noise and bias of up to 0.01 rad/s per axis, of any shape,
    each of the 2000 lines has its time, and from the second second on pitch
    is within a degree of the simulated angle and roll within a degree of 0 *)
Theorem C102_pendulum fuel tm ta draws : (1000 <= fuel)%nat -> List.length draws = 2000%nat -> Forall small_draw draws ->
  exists out, pendulum_main fuel tm ta draws = Ok out /\ List.length out = 2000%nat /\
    forall i o, nth_error out i = Some o -> fst o = (1583315232492 + 10 * Z.of_nat i)%Z /\
      ((100 <= i)%nat -> exists roll pitch yaw, snd o = (x2 roll, x2 pitch, x2 yaw) /\
        Rabs (pitch - swing_angle i) < degree /\ Rabs roll < degree).
Proof.
  intros Hf HL HD. unfold pendulum_main. rewrite pendulum_run by exact Hf. cbn [bind].
  destruct (@demo_angles_run fuel ltac:(lia) draws 0 (sacf0 tm ta) HD) as (ms & out & E1 & E2 & E3 & E4).
  - lia.
  - reflexivity.
  - exists 1, 0, 0, 0. split; [split; [reflexivity|ring]|]. split; [reflexivity|]. unfold level_of. cbn [Nat.pred pow].
    replace (vertical 1 0 0 0) with (uvec 0) by (unfold uvec, vertical, r31, r32, r33; rewrite sin_0, cos_0; f_equal; [f_equal|]; ring).
    eapply Rle_trans; [apply uvec_dist|]. pose proof pi_bounds as P. unfold swing_angle. cbn [Nat.ltb Nat.leb].
    rewrite Rminus_0_l, Rabs_Ropp, Rabs_right by lra. unfold hd0. lra.
  - rewrite HL in E1. rewrite E1. cbn [bind]. exists out. split; [exact E2|]. split; [rewrite E3; exact HL|]. exact E4.
Qed.
Print Assumptions C102_pendulum.

(** bias as in the program, noise at its limit, and an angle that is not constant *)
Example C102_example : small_draw (mkV (x2 (5 / 100)) (x2 (- (5 / 100))) (x2 (5 / 100)), mkV (x2 (5 / 1000)) (x2 (1 / 100)) (x2 (- (1 / 100)))) /\
  Forall small_draw (repeat (mkV (x2 (5 / 100)) (x2 (- (5 / 100))) (x2 (5 / 100)), mkV (x2 (5 / 1000)) (x2 (1 / 100)) (x2 (- (1 / 100)))) 2000) /\
  swing_angle 1000 < swing_angle 999.
Proof.
  assert (S : small_draw (mkV (x2 (5 / 100)) (x2 (- (5 / 100))) (x2 (5 / 100)), mkV (x2 (5 / 1000)) (x2 (1 / 100)) (x2 (- (1 / 100))))).
  { exists (5 / 100), (- (5 / 100)), (5 / 100), (5 / 1000), (1 / 100), (- (1 / 100)). rewrite !Rabs_Ropp, !Rabs_right by lra.
    split; [reflexivity|]. split; [reflexivity|]. lra. }
  split; [exact S|]. split; [apply Forall_forall; intros d H; apply repeat_spec in H; subst d; exact S|].
  unfold swing_angle. change (1000 <? 1000)%nat with false. change (999 <? 1000)%nat with true. cbv iota. rewrite inr1000.
  pose proof pi_bounds as P. assert (C : cos (sqrt (981 / 100) * (1000 / 100)) < 1); [|nra].
  (* 10 sqrt 9.81 is not 10 pi *)
  pose proof (COS_bound (sqrt (981 / 100) * (1000 / 100))) as B. destruct (Rlt_or_le (cos (sqrt (981 / 100) * (1000 / 100))) 1) as [L|L]; [exact L|exfalso].
  set (x := sqrt (981 / 100) * (1000 / 100)) in *.
  replace (cos x) with (cos (10 * PI - x)) in L.
  2:{ replace (10 * PI - x) with (- x + 2 * INR 5 * PI) by (cbn [INR]; ring). rewrite cos_period, cos_neg. reflexivity. }
  assert (W : sqrt (981 / 100) <= 3133 / 1000) by (apply Rle_trans with (sqrt (3133 / 1000 * (3133 / 1000))); [apply sqrt_le_1_alt; lra|rewrite sqrt_square; lra]).
  pose proof w_bounds as W2. set (t := 10 * PI - x) in *. assert (T : 7 / 100 <= t <= 2 / 10) by (subst t x; lra).
  replace t with (2 * (t / 2)) in L by field. rewrite cos_2a_sin in L. pose proof (@sin_low (t / 2) ltac:(lra)) as S1. pose proof (cos_low (t / 2)) as S2.
  assert (1 / 2 <= cos (t / 2)) by nra. assert (1 / 100 <= sin (t / 2)) by nra. nra.
Qed.
(** in doubles the first loop also runs 1000 times and every time is as stated *)
Definition ex_static : res (list (tick SF) * SF) := static_phase (NF := nf) 1000 0 (@f0 SF nf) (@fofZ SF nf 10) (@fdiv SF nf (@f1 SF nf) (@fofZ SF nf 100)) (@fofZ SF nf 1).
Example C102_example_double : match ex_static with Ok (l, t) => Nat.eqb (List.length l) 1000 &&
    forallb (fun p => match demo_ts (NF := nf) (tk_t (fst p)) with Ok z => (z =? 1583315232492 + 10 * Z.of_nat (snd p))%Z | _ => false end) (combine l (seq 0 1000))
  | _ => false end = true.
Proof. vm_compute. reflexivity. Qed.
