(** Proofs of C105. *)
From Coq Require Import Reals Lra Lia Psatz.
From Verif Require Import Lib NumReal LibR Sensors SaCf SaDemo SaTest Spec_Sensors Spec_SaCf Spec_Tilt Spec_Settle Spec_SaDemo
  Pf_Angle Pf_Cf Pf_SaCf Pf_Tilt Pf_Settle Pf_Pendulum.
Set Implicit Arguments.
Local Open Scope list_scope.
Local Open Scope R_scope.
Local Notation x2 x := (Some x : RX).

Lemma rx_toZ z : (Z.abs z < 2 ^ 63)%Z -> ftoZ (x2 (IZR z)) = Some z.
Proof.
  intros H. assert (T : Rtrunc (IZR z) = z).
  { unfold Rtrunc, Rltb. destruct (Rlt_dec (IZR z) 0) as [L|L]; [rewrite <- opp_IZR|]; rewrite Int_part_IZR; lia. }
  cbn [ftoZ num_real]. unfold rtoZ. rewrite T. cbv zeta.
  replace ((- 2 ^ 63 <=? z)%Z && (z <? 2 ^ 63)%Z) with true; [reflexivity|].
  symmetry. apply andb_true_iff. split; [apply Z.leb_le|apply Z.ltb_lt]; lia.
Qed.
Lemma tilt_times_run fuel m : (m <= fuel)%nat -> forall i, (i + m = 1000)%nat ->
  tilt_times fuel (Z.of_nat i) (stamp i) (x2 10) (x2 (1 / 100)) = Ok (map stamp (seq i m)).
Proof.
  revert m. induction fuel as [|fuel IH]; intros m Hm i Hi; cbn [tilt_times]; rewrite ltb_iter.
  - assert (m = 0%nat) by lia. subst m. rewrite (proj2 (Nat.ltb_ge i 1000)) by lia. reflexivity.
  - destruct (Nat.ltb_spec i 1000) as [L|L].
    + destruct m as [|m]; [lia|]. rewrite !rx_ofZ, rx_mul, rx_add.
      replace (IZR (stamp i) + 1000 * (1 / 100)) with (IZR (stamp (S i))) by (unfold stamp; rewrite !plus_IZR, !mult_IZR, Nat2Z.inj_succ, succ_IZR; field).
      rewrite rx_toZ by (unfold stamp; lia). replace (Z.of_nat i + 1)%Z with (Z.of_nat (S i)) by lia.
      rewrite (IH m) by lia. reflexivity.
    + assert (m = 0%nat) by lia. subst m. reflexivity.
Qed.

Definition ta : R := 89 / 10000.
Definition td0 : R := 79 / 100.
Lemma residual_still : residual (1 / 10) ta hb <= 1085 / 100000.
Proof.
  unfold residual. rewrite taken_tenth. cbv zeta.
  assert (sqrt (hb * hb + 40 / 401 * (40 / 401 * (ta * ta) - hb * hb)) <= 904 / 1000000).
  { apply Rle_trans with (sqrt (904 / 1000000 * (904 / 1000000))); [apply sqrt_le_1_alt; unfold ta, hb; lra|rewrite sqrt_square; lra]. }
  unfold hb at 1. apply Rle_trans with ((175 / 1000000 + 904 / 1000000) / (40 / 401)); [|lra].
  unfold Rdiv at 1 4. apply Rmult_le_compat_r; [left; apply Rinv_0_lt_compat; lra|lra].
Qed.
Lemma level_still n : (200 <= n)%nat -> level_of (taken (1 / 10)) ta hb td0 n <= 11 / 1000.
Proof.
  intros H. unfold level_of. pose proof residual_still as R. rewrite residual_balance in R. rewrite taken_tenth in *.
  set (S := balance (40 / 401) ta hb) in *.
  assert (S0 : 0 <= S) by (subst S; pose proof (@balance_low (40 / 401) ta hb ltac:(lra)) as B; unfold ta, hb in *; lra).
  set (rho := sqrt (1 - 40 / 401)). assert (Q : rho * rho = 361 / 401) by (subst rho; rewrite sqrt_sqrt; lra).
  assert (R0 : 0 <= rho) by apply sqrt_pos.
  assert (P : 0 <= rho ^ n <= 1 / 10000).
  { split; [apply pow_le, R0|]. replace n with (200 + (n - 200))%nat by lia. rewrite pow_add.
    assert (P1 : rho ^ 200 <= 1 / 10000).
    { change 200%nat with (2 * 100)%nat. rewrite pow_mult. replace (rho ^ 2) with (361 / 401) by (cbn [pow]; lra).
      change 100%nat with (10 * 10)%nat. rewrite pow_mult. assert (P10 : 0 <= (361 / 401) ^ 10 <= 35 / 100) by (split; [apply pow_le; lra|cbn [pow]; lra]).
      apply Rle_trans with ((35 / 100) ^ 10); [apply pow_incr, P10|cbn [pow]; lra]. }
    assert (P2 : 0 <= rho ^ (n - 200) <= 1).
    { split; [apply pow_le, R0|]. apply Rle_trans with (1 ^ (n - 200)); [apply pow_incr; nra|rewrite pow1; lra]. }
    assert (0 <= rho ^ 200) by (apply pow_le, R0). nra. }
  unfold td0. nra.
Qed.

(** * One element *)
Definition imu_still (th : R) (i : nat) (a b c p q r : R) : imu RX :=
  mkImu (mkSt (mkSensor ACCELEROMETER (mkV (x2 (- (981 / 100) * sin th + a)) (x2 (0 + b)) (x2 (981 / 100 * cos th + c)))) (stamp i))
    (mkSt (mkSensor GYROSCOPE (mkV (x2 (0 + p)) (x2 (0 + q)) (x2 (0 + r)))) (stamp i))
    (mkSt (mkSensor MAGNETOMETER (mkV (x2 (48 / 100 * cos (6048 / 100 * PI / 180 + th))) (x2 0) (x2 (48 / 100 * sin (6048 / 100 * PI / 180 + th))))) (stamp i)).
Lemma imu_still_run th i na ng a b c p q r : real_vec na a b c -> real_vec ng p q r ->
  tilt_imu (x2 th) (stamp i) na ng = imu_still th i a b c p q r.
Proof.
  intros Ha Hg. unfold tilt_imu. unfold real_vec in Ha, Hg. rewrite Ha, Hg. cbn [vx vy vz]. unfold imu_still, grav, flux, inclination. change (fpi : RX) with (x2 PI).
  rewrite !rx_lit, !rx_ofZ, rx_f0 by lra. repeat (rewrite rx_opp || rewrite rx_sin || rewrite rx_cos || rewrite rx_mul || rewrite rx_add || rewrite rx_div by lra).
  reflexivity.
Qed.
Definition still_round (th : R) (m : imu RX) : list ((R * R * R) * stamped (sensor RX)) :=
  [(uvec th, im_acc m); (uvec th, im_gyro m); (uvec th, im_magn m)].
Lemma still_moving th i a b c p q r : Rabs a <= 5 / 100 -> Rabs b <= 5 / 100 -> Rabs c <= 5 / 100 ->
  Rabs p <= 1 / 100 -> Rabs q <= 1 / 100 -> Rabs r <= 1 / 100 ->
  moving ta hb (uvec th) (before i) false (still_round th (imu_still th i a b c p q r)).
Proof.
  intros Ha Hb Hc Hp Hq Hr. cbn [still_round moving imu_still im_acc im_gyro im_magn st_data st_ts s_type s_val].
  split.
  { pose proof (@abs_sq _ _ Ha). pose proof (@abs_sq _ _ Hb). pose proof (@abs_sq _ _ Hc).
    destruct (@direction_near (- sin th) 0 (cos th) a b c (981 / 100) (8829 / 1000000) (uvec_unit th)) as [N D]; try lra.
    exists (- (981 / 100) * sin th + a), (0 + b), (981 / 100 * cos th + c). split; [reflexivity|].
    replace (981 / 100 * - sin th + a) with (- (981 / 100) * sin th + a) in * by ring. replace (981 / 100 * 0 + b) with (0 + b) in * by ring.
    split; [pose proof feps_small; lra|]. apply sq_le; [unfold ta; lra|]. unfold uvec, ta. lra. }
  split; [|split; [left; reflexivity|split; [do 3 eexists; reflexivity|split; [unfold stamp; lia|exact I]]]].
  set (dt := seconds (before i) _).
  destruct (seen_exists ((0 + p) * dt, (0 + q) * dt, (0 + r) * dt) (uvec th)) as (s & Hs).
  exists (0 + p), (0 + q), (0 + r), s. split; [reflexivity|]. cbv zeta. split; [exact Hs|]. split; [apply uvec_unit|].
  destruct i as [|j]; [reflexivity|]. cbn [before] in *. destruct (Z.eqb_spec (stamp j) (-1)) as [E|E]; [unfold stamp in E; lia|].
  assert (ED : dt = 1 / 100).
  { subst dt. unfold seconds. cbn [st_ts before]. rewrite (proj2 (Z.eqb_neq _ _) E). unfold stamp.
    replace (1583315232492 + 10 * Z.of_nat (S j) - (1583315232492 + 10 * Z.of_nat j))%Z with 10%Z by lia. lra. }
  rewrite ED in Hs.
  assert (S0 : seen_after (0, 0, 0) (uvec th) (uvec th)) by (unfold seen_after, uvec, cross3; f_equal; [f_equal|]; ring).
  eapply Rle_trans; [exact (@seen_close _ _ _ _ _ (uvec_unit _) (uvec_unit _) Hs S0)|].
  apply sq_le; [unfold hb; lra|]. unfold dist3. rewrite norm3_sq.
  pose proof (@abs_sq _ _ Hp). pose proof (@abs_sq _ _ Hq). pose proof (@abs_sq _ _ Hr). unfold hb. lra.
Qed.

Definition tilt_track (th : R) (c : sacf RX) (n : nat) : Prop := exists w x y z, unit_quat (sc_q c) w x y z /\
  sc_interr c = v0 /\ dist3 (uvec th) (vertical w x y z) <= level_of (taken (1 / 10)) ta hb td0 n.
Lemma still_run fuel th c i a b d p q r : (3 <= fuel)%nat -> Rabs a <= 5 / 100 -> Rabs b <= 5 / 100 -> Rabs d <= 5 / 100 ->
  Rabs p <= 1 / 100 -> Rabs q <= 1 / 100 -> Rabs r <= 1 / 100 ->
  sc_gyro c = before i -> tilt_track th c (Nat.pred i) ->
  exists c', sacf_run fuel sacf_gains c (map snd (still_round th (imu_still th i a b d p q r))) = Ok c' /\ sc_gyro c' = stamp i /\ tilt_track th c' i.
Proof.
  intros Hf Ha Hb Hd Hp Hq Hr Hg (w & x & y & z & HU & HI & HD).
  pose proof (@still_moving th i a b d p q r Ha Hb Hd Hp Hq Hr) as HM.
  destruct (@moving_run fuel sacf_gains (1 / 10) 0 ta hb td0 (still_round th (imu_still th i a b d p q r)) Hf gains_acc) with
    (c := recall c) (u := uvec th) (n := Nat.pred i) (w := w) (x := x) (y := y) (z := z) (fresh := false)
    as (c' & w' & x' & y' & z' & R1 & R2 & R3 & R4 & R5); try (unfold ta, hb, td0; lra); auto.
  - pose proof residual_still. unfold td0. lra.
  - apply uvec_unit.
  - cbn [recall cf_gyro]. rewrite Hg. exact HM.
  - exists (forget c'). split; [rewrite <- (forget_recall c) at 1; rewrite run_forget, R1; reflexivity|].
    split; [cbn [forget sc_gyro]; rewrite R4; reflexivity|].
    exists w', x', y', z'. split; [exact R2|]. split; [exact R3|].
    cbn [still_round true_end imu_still im_acc im_gyro im_magn st_data s_type] in R5.
    replace (Nat.pred i + gyro_steps (cf_gyro (recall c)) (still_round th (imu_still th i a b d p q r)))%nat with i in R5; [exact R5|].
    cbn [still_round gyro_steps imu_still im_acc im_gyro im_magn st_data s_type recall cf_gyro]. rewrite Hg.
    destruct i as [|j]; [reflexivity|]. cbn [before Nat.pred]. destruct (Z.eqb_spec (stamp j) (-1)) as [E|E]; [unfold stamp in E; lia|]. cbn. lia.
Qed.

(** * Angles *)
Lemma near_angles th q w x y z : Rabs th <= PI / 4 -> unit_quat q w x y z -> dist3 (uvec th) (vertical w x y z) <= 11 / 1000 ->
  exists roll pitch yaw, q_euler q = (x2 roll, x2 pitch, x2 yaw) /\ Rabs (pitch - th) < degree /\ Rabs roll < degree.
Proof.
  intros Hth [Hq HU] D. unfold real_quat in Hq. rewrite Hq.
  destruct (euler_real HU) as (roll & pitch & yaw & E1 & B1 & B2 & B3 & E31 & _ & _ & E32 & E33).
  exists roll, pitch, yaw. split; [exact E1|]. pose proof pi_bounds as P.
  pose proof (dist3_pos (uvec th) (vertical w x y z)) as D0. pose proof (@dist3_dot _ _ (uvec_unit th) (@vertical_unit w x y z HU)) as DD.
  assert (DT : 1 - 605 / 10000000 <= dot3 (uvec th) (vertical w x y z)) by nra.
  unfold uvec, vertical, dot3 in DT. rewrite E31, E32, E33 in DT.
  assert (At : - (PI / 4) <= th <= PI / 4) by (pose proof (Rle_abs th) as T1; pose proof (Rle_abs (- th)) as T2; rewrite Rabs_Ropp in T2; lra).
  assert (C4 : 7071 / 10000 <= cos (PI / 4)).
  { rewrite cos_PI4. assert (T : sqrt 2 * sqrt 2 = 2) by (apply sqrt_sqrt; lra). pose proof (sqrt_lt_R0 2 ltac:(lra)) as T2.
    assert (sqrt 2 <= 141422 / 100000) by nra. apply Rmult_le_reg_r with (sqrt 2); [lra|]. replace (1 / sqrt 2 * sqrt 2) with 1 by (field; apply Rgt_not_eq; lra). lra. }
  assert (CA : forall t, cos (Rabs t) = cos t) by (intros t; unfold Rabs; destruct (Rcase_abs t); [apply cos_neg|reflexivity]).
  assert (Ct : 7071 / 10000 <= cos th).
  { rewrite <- CA. eapply Rle_trans; [exact C4|]. apply cos_mono; [apply Rabs_pos|exact Hth|lra]. }
  assert (Cp : 0 <= cos pitch) by (apply cos_ge_0; lra). pose proof (COS_bound roll) as Br. pose proof (COS_bound th) as Bt. pose proof (COS_bound pitch) as Bp.
  assert (C1 : 1 - 605 / 10000000 <= cos (pitch - th)).
  { assert (T1 : cos pitch * cos roll <= cos pitch) by nra. assert (T2 : cos th * (cos pitch * cos roll) <= cos th * cos pitch) by (apply Rmult_le_compat_l; lra).
    rewrite cos_minus. lra. }
  assert (Deg : 174 / 10000 <= degree) by (unfold degree; lra).
  assert (C2 : cos (174 / 10000) < 1 - 1125 / 10000000).
  { replace (174 / 10000) with (2 * (87 / 10000)) by field. rewrite cos_2a_sin. pose proof (@sin_low (87 / 10000) ltac:(lra)) as S1. pose proof (cos_low (87 / 10000)).
    assert (86 / 10000 <= sin (87 / 10000)) by lra. nra. }
  assert (HP : Rabs (pitch - th) < 174 / 10000).
  { destruct (Rlt_or_le (Rabs (pitch - th)) (174 / 10000)) as [L|L]; [exact L|exfalso].
    assert (cos (Rabs (pitch - th)) <= cos (174 / 10000)).
    { apply cos_mono; [lra|lra|]. apply Rle_trans with (Rabs pitch + Rabs (- th)); [apply Rabs_triang|]. rewrite Rabs_Ropp.
      assert (Rabs pitch <= PI / 2) by (apply Rabs_le; lra). lra. }
    rewrite CA in H. lra. }
  split; [lra|].
  (* the cosine of pitch *)
  assert (CP : 693 / 1000 <= cos pitch).
  { replace pitch with (th + (pitch - th)) by ring. set (e := pitch - th) in *. rewrite cos_plus.
    assert (Se : Rabs (sin e) <= 174 / 10000).
    { assert (-(174 / 10000) < e < 174 / 10000) by (apply Rabs_def2 in HP; lra). apply Rabs_le.
      destruct (Rle_or_lt 0 e) as [L|L].
      - pose proof (@sin_lip 0 e L) as S1. rewrite sin_0 in S1. assert (0 <= sin e) by (apply sin_ge_0; lra). lra.
      - pose proof (@sin_lip e 0 ltac:(lra)) as S1. rewrite sin_0 in S1. assert (0 <= sin (- e)) by (apply sin_ge_0; lra). rewrite sin_neg in H0. lra. }
    assert (Sth : Rabs (sin th) <= 7072 / 10000).
    { pose proof (sin2_cos2 th) as SC. unfold Rsqr in SC. apply Rnot_lt_le. intros H. pose proof (@abs_sq (sin th) (Rabs (sin th)) ltac:(lra)).
      assert (7072 / 10000 * (7072 / 10000) <= Rabs (sin th) * Rabs (sin th)) by nra.
      assert (Rabs (sin th) * Rabs (sin th) = sin th * sin th) by (rewrite <- Rabs_mult; apply Rabs_right, Rle_ge, Rle_0_sqr). nra. }
    assert (Rabs (sin th * sin e) <= 7072 / 10000 * (174 / 10000)).
    { rewrite Rabs_mult. pose proof (Rabs_pos (sin th)). pose proof (Rabs_pos (sin e)). nra. }
    pose proof (Rle_abs (sin th * sin e)). assert (1 - 605 / 10000000 <= cos e) by exact C1. nra. }
  assert (V : dist3 (uvec th) (vertical w x y z) * dist3 (uvec th) (vertical w x y z) =
    (- sin th - r31 w x y z) * (- sin th - r31 w x y z) + (0 - r32 w x y z) * (0 - r32 w x y z) + (cos th - r33 w x y z) * (cos th - r33 w x y z)).
  { unfold uvec, vertical, dist3. rewrite norm3_sq. ring. }
  pose proof (Rle_0_sqr (- sin th - r31 w x y z)) as V1. pose proof (Rle_0_sqr (0 - r32 w x y z)) as V2. pose proof (Rle_0_sqr (cos th - r33 w x y z)) as V3. unfold Rsqr in *.
  assert (DQ : dist3 (uvec th) (vertical w x y z) * dist3 (uvec th) (vertical w x y z) <= 11 / 1000 * (11 / 1000)) by nra.
  assert (V4 : cos th - r33 w x y z <= 11 / 1000) by (destruct (Rle_or_lt (cos th - r33 w x y z) (11 / 1000)) as [L|L]; [exact L|nra]).
  rewrite E33 in V4. assert (Cr : 0 < cos roll) by nra.
  assert (S2 : cos pitch * sin roll * (cos pitch * sin roll) <= 11 / 1000 * (11 / 1000)) by (rewrite E32 in V, V2; nra).
  destruct (Rlt_or_le (Rabs roll) degree) as [L|L]; [exact L|exfalso].
  assert (CL : cos (Rabs roll) <= cos (174 / 10000)) by (apply cos_mono; [lra|lra|apply Rabs_le; lra]).
  assert (C3 : cos (174 / 10000) <= 1 - 147 / 1000000).
  { replace (174 / 10000) with (2 * (87 / 10000)) by field. rewrite cos_2a_sin. pose proof (@sin_low (87 / 10000) ltac:(lra)) as S1. pose proof (cos_low (87 / 10000)).
    assert (86 / 10000 <= sin (87 / 10000)) by lra. nra. }
  rewrite CA in CL. pose proof (sin2_cos2 roll) as SC. unfold Rsqr in SC.
  assert (SR : 29 / 100000 <= sin roll * sin roll) by nra.
  assert (693 / 1000 * (693 / 1000) * (sin roll * sin roll) <= cos pitch * sin roll * (cos pitch * sin roll)).
  { replace (cos pitch * sin roll * (cos pitch * sin roll)) with (cos pitch * cos pitch * (sin roll * sin roll)) by ring.
    apply Rmult_le_compat_r; [nra|]. nra. }
  lra.
Qed.

Lemma tilt_angles_run fuel th : (3 <= fuel)%nat -> Rabs th <= PI / 4 -> forall draws i c, Forall small_draw draws ->
  sc_gyro c = before i -> tilt_track th c (Nat.pred i) -> draws <> [] ->
  exists out, demo_angles fuel c (tilt_imus (x2 th) (map stamp (seq i (List.length draws))) draws) = Ok out /\
    ((201 <= i + List.length draws)%nat -> exists roll pitch yaw, snd (last out (0%Z, (f0, f0, f0))) = (x2 roll, x2 pitch, x2 yaw) /\
        Rabs (pitch - th) < degree /\ Rabs roll < degree).
Proof.
  intros Hf Hth. induction draws as [|[na ng] draws IH]; intros i c HD HG HT HN; [congruence|]. clear HN.
  destruct (Forall_inv HD) as (a & b & d & p & q & r & Ha & Hg & A1 & A2 & A3 & A4 & A5 & A6). cbn [fst snd] in Ha, Hg.
  cbn [List.length seq map tilt_imus]. rewrite (@imu_still_run th i na ng a b d p q r Ha Hg).
  destruct (@still_run fuel th c i a b d p q r Hf A1 A2 A3 A4 A5 A6 HG HT) as (c' & R1 & R2 & R3).
  cbn [demo_angles]. cbn [still_round map snd sacf_run] in R1.
  destruct (sacf_update fuel sacf_gains c (im_acc (imu_still th i a b d p q r))) as [c1| | |]; try discriminate R1. cbn [bind] in R1 |- *.
  destruct (sacf_update fuel sacf_gains c1 (im_gyro (imu_still th i a b d p q r))) as [c2| | |]; try discriminate R1. cbn [bind] in R1 |- *.
  destruct (sacf_update fuel sacf_gains c2 (im_magn (imu_still th i a b d p q r))) as [c3| | |]; try discriminate R1. cbn [bind] in R1 |- *.
  injection R1 as ->. destruct draws as [|dr draws].
  - cbn [List.length seq map tilt_imus demo_angles bind]. eexists. split; [reflexivity|]. intros H. cbn [last snd fused_orientation fst].
    destruct R3 as (w & x & y & z & HU & _ & HDist). assert (L := @level_still i ltac:(cbn in H; lia)).
    destruct (@near_angles th (sc_q c') w x y z Hth HU ltac:(lra)) as (roll & pitch & yaw & E & E2). exists roll, pitch, yaw. split; [|exact E2].
    exact E.
  - destruct (IH (S i) c' (Forall_inv_tail HD) R2 R3) as (out & E1 & E2); [discriminate|]. rewrite E1. cbn [bind].
    assert (HO : out <> []).
    { destruct dr as [na' ng']. cbn [List.length seq map tilt_imus demo_angles] in E1.
      repeat match type of E1 with bind ?x _ = _ => destruct x; try discriminate E1; cbn [bind] in E1 end.
      injection E1 as <-. discriminate. }
    eexists. split; [reflexivity|]. intros H. destruct out as [|o out]; [congruence|].
    cbn [last] in E2 |- *. apply E2. cbn [List.length] in H |- *. lia.
Qed.
