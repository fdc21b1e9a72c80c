(** C71-C73: stand-alone complementary filter. *)
From Coq Require Import Reals Lra Lia Psatz.
From Verif Require Import Lib NumOrd NumReal NumFloat LibR Sensors SaCf Spec_Sensors Spec_SaCf Pf_Angle Pf_Cf Pf_SaCf Pf_Mag Ex.
Local Open Scope string_scope.
Local Open Scope list_scope.
#[local] Existing Instance nf.

(** ** C71: refinement and dependencies *)
(** the stand-alone filter is the core's filter without its two extra members *)
Theorem C71_refines {F : Type} {NF : Num F} fuel (k : cfconf F) (c : cfilter F) ms :
  sacf_run fuel k (forget c) ms = c1 <- cf_run fuel k c ms ;; Ok (forget c1).
Proof. exact (@run_forget F NF fuel k ms c). Qed.
Print Assumptions C71_refines.

(** any gains, any samples: angles are defined and in range, the time is that
    of the last sample *)
Theorem C71_safe fuel (k : cfconf RX) tm ta (ms : list (stamped (sensor RX))) m : (3 <= fuel)%nat -> real_gains k ->
  Forall real_sample (ms ++ [m]) ->
  exists c roll pitch yaw, sacf_run fuel k (sacf0 tm ta) (ms ++ [m]) = Ok c /\
    fused_orientation c = ((Some roll : RX), (Some pitch : RX), (Some yaw : RX), st_ts m) /\
    (- PI < roll <= PI)%R /\ (- (PI / 2) <= pitch <= PI / 2)%R /\ (- PI < yaw <= PI)%R.
Proof.
  intros Hf Hk H. set (c0 := cf0 (mkSt (mkSensor tm v0) (-1)) (mkSt (mkSensor ta v0) (-1)) : cfilter RX).
  destruct (@cf_run_good fuel k _ Hf Hk H c0 (cf0_good _ _)) as (c & E & G). destruct (cg_q G) as (w & x & y & z & Eq & HU).
  destruct (euler_real HU) as (r & p & ya & E1 & H1 & H2 & H3 & _). exists (forget c), r, p, ya.
  assert (ER : sacf_run fuel k (sacf0 tm ta) (ms ++ [m]) = Ok (forget c)).
  { change (sacf0 tm ta) with (forget c0). rewrite run_forget, E. reflexivity. }
  split; [exact ER|]. split; [|auto]. unfold fused_orientation. rewrite (run_cur _ _ _ _ _ ER). cbn [forget sc_q].
  unfold real_quat in Eq. rewrite Eq, E1. reflexivity.
Qed.
Print Assumptions C71_safe.

(** once the gyroscope runs, only gyroscope and accelerometer samples move the
    estimate: the magnetometer never corrects it again *)
Theorem C71_inertial {F : Type} {NF : Num F} fuel (k : cfconf F) c pre g ms c1 c2 :
  is_gyro g = true -> Forall (fun m => is_gyro m = true -> st_ts m <> (-1)%Z) (g :: ms) ->
  sacf_run fuel k c (pre ++ g :: ms) = Ok c1 -> sacf_run fuel k c (pre ++ g :: filter inertial ms) = Ok c2 ->
  sc_q c1 = sc_q c2 /\ q_euler (sc_q c1) = q_euler (sc_q c2).
Proof.
  intros Hg HT E1 E2. change (g :: ms) with ([g] ++ ms) in E1. change (g :: filter inertial ms) with ([g] ++ filter inertial ms) in E2.
  rewrite app_assoc in E1, E2. rewrite run_app in E1, E2. inv_bind E1. inv_bind E2. rewrite Ha in Ha0. injection Ha0 as <-.
  rewrite run_app in Ha. inv_bind Ha. cbn [sacf_run] in Hb1. inv_bind Hb1. injection Hb2 as ->.
  match goal with H : sacf_update fuel k ?b g = Ok a |- _ => pose proof (@update_gyro F NF fuel k b a g H (Forall_inv HT) (or_intror Hg)) as G end.
  destruct (@run_inertial F NF fuel k ms a a c1 c2 (Forall_inv_tail HT) G eq_refl eq_refl eq_refl Hb Hb0) as (Q & _).
  rewrite Q. auto.
Qed.
Print Assumptions C71_inertial.

(** a gyroscope bias therefore turns the heading for ever, whatever the
    magnetometer shows *)
Theorem C71_drift fuel (k : cfconf RX) tm ta g (ms : list (stamped (sensor RX))) (rate : stamped (sensor RX) -> R) :
  (3 <= fuel)%nat -> real_gains k -> is_gyro g = true ->
  Forall (fun m => (is_gyro m = true /\ real_vec (s_val (st_data m)) 0 0 (rate m) /\ st_ts m <> (-1)%Z) \/ (is_mag m = true /\ real_sample m)) (g :: ms) ->
  exists c yaw j, sacf_run fuel k (sacf0 tm ta) (g :: ms) = Ok c /\ q_yaw (sc_q c) = (Some yaw : RX) /\ (- PI < yaw <= PI)%R /\
    (yaw = 2 * half_turns (-1) (filter is_gyro (g :: ms)) rate + 2 * PI * IZR j)%R.
Proof.
  intros Hf Hk Hg H. set (c0 := cf0 (mkSt (mkSensor tm v0) (-1)) (mkSt (mkSensor ta v0) (-1)) : cfilter RX).
  assert (HS : Forall real_sample (g :: ms)).
  { eapply Forall_impl; [|exact H]. intros m [(_ & Hv & _)|[_ Hm]]; [do 3 eexists; exact Hv|exact Hm]. }
  destruct (@cf_run_good fuel k _ Hf Hk HS c0 (cf0_good _ _)) as (c & E & _).
  assert (ER : sacf_run fuel k (sacf0 tm ta) (g :: ms) = Ok (forget c)).
  { change (sacf0 tm ta) with (forget c0). rewrite run_forget, E. reflexivity. }
  assert (HF : filter inertial ms = filter is_gyro ms).
  { clear -H. apply Forall_inv_tail in H. induction H as [|m t Hm _ IH]; [reflexivity|]. cbn [filter].
    destruct Hm as [(Hm & _)|[Hm _]]; unfold is_gyro, is_mag, inertial in *; destruct (s_type (st_data m)); try discriminate Hm; rewrite IH; reflexivity. }
  assert (HG : Forall (fun m => s_type (st_data m) = GYROSCOPE /\ real_vec (s_val (st_data m)) 0 0 (rate m)) (filter is_gyro (g :: ms))).
  { apply Forall_forall. intros m Hm. apply filter_In in Hm as [Hi Hm]. rewrite Forall_forall in H. destruct (H m Hi) as [(_ & Hv & _)|[Hx _]].
    - split; [|exact Hv]. unfold is_gyro in Hm. destruct (s_type (st_data m)); try discriminate Hm. reflexivity.
    - unfold is_gyro, is_mag in *. destruct (s_type (st_data m)); discriminate. }
  destruct (@gyro_history fuel k _ c0 0 rate HG) as (d & Ed & Eq & _).
  { unfold c0, cf0, yaw_quat, q_one. cbn [cf_q]. rewrite cos_0, sin_0. reflexivity. }
  { reflexivity. }
  assert (ED : sacf_run fuel k (sacf0 tm ta) (g :: filter inertial ms) = Ok (forget d)).
  { change (sacf0 tm ta) with (forget c0). rewrite run_forget, HF. cbn [filter] in Ed. rewrite Hg in Ed. rewrite Ed. reflexivity. }
  assert (HT : Forall (fun m : stamped (sensor RX) => is_gyro m = true -> st_ts m <> (-1)%Z) (g :: ms)).
  { eapply Forall_impl; [|exact H]. intros m [(_ & _ & Ht)|[Hm _]] Hx; [exact Ht|]. unfold is_gyro, is_mag in *. destruct (s_type (st_data m)); discriminate. }
  destruct (@C71_inertial RX num_real fuel k (sacf0 tm ta) [] g ms (forget c) (forget d) Hg HT ER ED) as [Q _].
  rewrite Rplus_0_l in Eq. destruct (yaw_of_yaw_quat (half_turns (cf_gyro c0) (filter is_gyro (g :: ms)) rate)) as (yaw & j & Ey & R1 & R2).
  exists (forget c), yaw, j. split; [exact ER|]. split; [rewrite Q; cbn [forget sc_q]; rewrite Eq; exact Ey|]. split; [exact R1|exact R2].
Qed.
Print Assumptions C71_drift.

Definition ex_turn (x y z t : Z) {F} {NF : Num F} : stamped (sensor F) := ex_sensor GYROSCOPE x y z t.
Lemma gains_real : real_gains (sacf_gains : cfconf RX).
Proof. exists (1 / 10)%R, (5 / 100)%R, 0%R. unfold sacf_gains. cbn [k_acc k_mag k_int]. rewrite !rx_lit by lra. auto. Qed.
Example C71_example : (3 <= 3)%nat /\ real_gains (sacf_gains : cfconf RX) /\ is_gyro (ex_turn 0 0 1 1000 : stamped (sensor RX)) = true /\
  Forall (fun m : stamped (sensor RX) => (is_gyro m = true /\ real_vec (s_val (st_data m)) 0 0 1 /\ st_ts m <> (-1)%Z) \/ (is_mag m = true /\ real_sample m))
    [ex_turn 0 0 1 1000; ex_sensor MAGNETOMETER 3 0 4 1005; ex_turn 0 0 1 1010] /\
  half_turns (-1) (filter is_gyro [ex_turn 0 0 1 1000; ex_sensor MAGNETOMETER 3 0 4 1005; ex_turn 0 0 1 1010]) (fun _ => 1%R) = atan (1 / 200).
Proof.
  split; [lia|]. split; [exact gains_real|]. split; [reflexivity|]. split.
  - constructor; [left|constructor; [right|constructor; [left|constructor]]].
    + split; [reflexivity|]. split; [reflexivity|discriminate].
    + split; [reflexivity|]. do 3 eexists. reflexivity.
    + split; [reflexivity|]. split; [reflexivity|discriminate].
  - cbn -[IZR]. replace (1 * (0 / 1000) / 2)%R with 0%R by field. rewrite atan_0, Rplus_0_l, Rplus_0_r. f_equal. cbn. field.
Qed.
(** in doubles: with and without the magnetometer after the gyroscope *)
Example C71_inertial_example : match sacf_run 3 sacf_gains (sacf0 GYROSCOPE GYROSCOPE : sacf SF) [ex_turn 0 0 1 1000; ex_sensor MAGNETOMETER 3 0 4 1005; ex_turn 0 0 1 1010],
  sacf_run 3 sacf_gains (sacf0 GYROSCOPE GYROSCOPE : sacf SF) [ex_turn 0 0 1 1000; ex_turn 0 0 1 1010] with
  | Ok a, Ok b => sc_q a = sc_q b /\ sc_q a <> q_one | _, _ => False end.
Proof. vm_compute. split; [reflexivity|discriminate]. Qed.

(** ** C72: device at rest *)
(** misalignment between the estimated and the measured vertical: never grows,
    and shrinks at least geometrically with the accelerometer samples, unless
    it starts exactly upside down *)
Theorem C72_converges fuel (k : cfconf RX) (c : sacf RX) u ka ki c0 ms w x y z :
  (3 <= fuel)%nat -> real_gains k -> k_acc k = (Some ka : RX) -> (0 < ka < 2)%R -> k_int k = (Some ki : RX) -> (ki <= 1 / 100000000)%R ->
  Forall (at_rest u) ms -> gyro_first (negb (sc_gyro c =? -1)%Z) ms ->
  unit_quat (sc_q c) w x y z -> sc_interr c = v0 -> (-1 < c0 <= 1)%R -> (c0 <= dot3 u (vertical w x y z))%R ->
  (0 <= decay ka c0 < 1)%R /\
  exists c' w' x' y' z', sacf_run fuel k c ms = Ok c' /\ unit_quat (sc_q c') w' x' y' z' /\
    (dot3 u (vertical w x y z) <= dot3 u (vertical w' x' y' z'))%R /\
    (1 - dot3 u (vertical w' x' y' z') <= decay ka c0 ^ count_acc ms * (1 - dot3 u (vertical w x y z)))%R.
Proof.
  intros Hf Hg Ek Hk Ei Hi HR HG HU HI H0 HC. split; [apply decay_range; auto|].
  destruct (@rest_run fuel k u ka ki c0 ms Hf Hg Ek Hk Ei Hi (proj1 H0) HR (recall c) w x y z (negb (sc_gyro c =? -1)%Z) HU HI) as (c' & w' & x' & y' & z' & R1 & R2 & _ & R3 & R4); auto.
  - cbn [recall cf_gyro]. destruct (Z.eqb_spec (sc_gyro c) (-1)); [discriminate|auto].
  - exists (forget c'), w', x', y', z'. rewrite <- (forget_recall c), run_forget, R1. auto.
Qed.
Print Assumptions C72_converges.

(** from the start: pitch and roll tend to those the accelerometer shows *)
Theorem C72_tilt fuel (k : cfconf RX) tm ta ka ki theta rho e :
  (3 <= fuel)%nat -> real_gains k -> k_acc k = (Some ka : RX) -> (0 < ka < 2)%R -> k_int k = (Some ki : RX) -> (ki <= 1 / 100000000)%R ->
  (- (PI / 2) < theta < PI / 2)%R -> (-1 < cos theta * cos rho)%R -> (0 < e <= 1)%R ->
  let u := (- sin theta, cos theta * sin rho, cos theta * cos rho)%R in
  exists N, forall ms, Forall (at_rest u) ms -> gyro_first false ms -> (N <= count_acc ms)%nat ->
  exists c roll pitch yaw, sacf_run fuel k (sacf0 tm ta) ms = Ok c /\
    q_euler (sc_q c) = ((Some roll : RX), (Some pitch : RX), (Some yaw : RX)) /\
    (Rabs (pitch - theta) < e)%R /\ (1 - e < cos (roll - rho))%R.
Proof.
  intros Hf Hg Ek Hk Ei Hi Ht H0 He u. set (c0 := (cos theta * cos rho)%R).
  assert (Hct : (0 < cos theta)%R) by (apply cos_gt_0; lra).
  assert (Hc1 : (c0 <= 1)%R). { pose proof (COS_bound theta). pose proof (COS_bound rho). unfold c0. nra. }
  assert (Hce : (cos e < 1)%R). { rewrite <- cos_0. apply cos_decreasing_1; pose proof PI2_1; lra. }
  assert (HT : (0 < cos theta * cos theta)%R) by nra.
  set (d := (Rmin (1 - cos e) (Rmin (e * (cos theta * cos theta) / 4) (cos theta * cos theta / 8)))%R).
  assert (Hd : (0 < d)%R) by (unfold d; repeat apply Rmin_glb_lt; nra).
  destruct (@decay_small ka c0 d Hk (conj H0 Hc1) Hd) as (N & HN). exists N. intros ms HR HG Hn.
  destruct (@C72_converges fuel k (sacf0 tm ta) u ka ki c0 ms 1 0 0 0 Hf Hg Ek Hk Ei Hi HR) as [DR (c & w & x & y & z & E & [Eq HU] & H1 & H2)].
  - exact HG.
  - split; [reflexivity|ring].
  - reflexivity.
  - split; [exact H0|exact Hc1].
  - unfold u, c0, dot3, vertical, r31, r32, r33. right. ring.
  - destruct (euler_real HU) as (roll & pitch & yaw & E1 & _ & P2 & _ & R31 & _ & _ & R32 & R33).
    exists c, roll, pitch, yaw. split; [exact E|]. unfold real_quat in Eq. split; [rewrite Eq; exact E1|].
    specialize (HN _ Hn).
    assert (EC : dot3 u (vertical w x y z) = (sin theta * sin pitch + cos theta * cos pitch * cos (roll - rho))%R).
    { unfold u, dot3, vertical. rewrite R31, R32, R33, cos_minus. ring. }
    assert (ES : dot3 u (vertical 1 0 0 0) = c0) by (unfold u, c0, dot3, vertical, r31, r32, r33; ring).
    rewrite EC, ES in H2.
    assert (HB : (1 - (sin theta * sin pitch + cos theta * cos pitch * cos (roll - rho)) < d)%R).
    { eapply Rle_lt_trans; [exact H2|]. eapply Rle_lt_trans; [|exact HN]. apply Rmult_le_compat_l; [apply pow_le; lra|].
      fold c0 in H0. lra. }
    unfold d in HB. eapply tilt_angles; try lra.
    + eapply Rlt_le_trans; [exact HB|apply Rmin_l].
    + eapply Rlt_le_trans; [exact HB|]. eapply Rle_trans; [apply Rmin_r|apply Rmin_l].
    + eapply Rlt_le_trans; [exact HB|]. eapply Rle_trans; [apply Rmin_r|apply Rmin_r].
Qed.
Print Assumptions C72_tilt.

(** gains of 2 or more: a device tilted by the angle with cosine 2/ka is never
    corrected *)
Theorem C72_stuck fuel (k : cfconf RX) u ka ms : k_acc k = (Some ka : RX) -> (2 <= ka)%R ->
  Forall (fun m => is_acc m = true /\ points_to u (s_val (st_data m))) ms -> forall (c : sacf RX) w x y z,
  unit_quat (sc_q c) w x y z -> dot3 u (vertical w x y z) = (2 / ka)%R ->
  exists c' w' x' y' z', sacf_run fuel k c ms = Ok c' /\ unit_quat (sc_q c') w' x' y' z' /\ dot3 u (vertical w' x' y' z') = (2 / ka)%R.
Proof.
  intros Ek Hk. induction ms as [|m t IH]; intros H c w x y z HU HC; [exists c, w, x, y, z; auto|]. cbn [sacf_run].
  destruct (Forall_inv H) as (Ha & a & b & d & Hv & Hn & Hd).
  assert (Et : s_type (st_data m) = ACCELEROMETER) by (unfold is_acc in Ha; destruct (s_type (st_data m)); try discriminate Ha; reflexivity).
  assert (E1 : exists c1, cf_update fuel k (recall c) m = Ok c1) by (unfold cf_update; rewrite Et; eauto). destruct E1 as (c1 & E1).
  destruct (@gravity_any fuel k (recall c) m c1 w x y z a b d ka Et Hv Hn HU Ek E1) as (w1 & x1 & y1 & z1 & U1 & HB & EC). cbv zeta in EC.
  fold (direction a b d) in EC. rewrite Hd, HC in EC.
  rewrite <- (forget_recall c), update_forget, E1. cbn [bind]. apply (IH (Forall_inv_tail H) (forget c1) w1 x1 y1 z1 U1).
  rewrite EC. field. split; [lra|]. intros Z. 
  assert (0 <= (ka - 2) * (ka + 2))%R by (apply Rmult_le_pos; lra). nra.
Qed.
Print Assumptions C72_stuck.

Lemma norm_345 : norm3 3 0 4 = 5%R.
Proof. unfold norm3. replace (3 * 3 + 0 * 0 + 4 * 4)%R with (5 * 5)%R by ring. apply sqrt_square. lra. Qed.
Lemma points_345 t ts : points_to (3 / 5, 0 / 5, 4 / 5)%R (s_val (st_data (ex_sensor t 3 0 4 ts : stamped (sensor RX)))).
Proof.
  exists 3%R, 0%R, 4%R. split; [reflexivity|]. unfold direction. rewrite norm_345. split; [|reflexivity].
  pose proof feps_small. lra.
Qed.
(** at rest, tilted: accelerometer, gyroscope, magnetometer in turn *)
Definition ex_still (ts : Z) : list (stamped (sensor RX)) :=
  [ex_sensor ACCELEROMETER 3 0 4 ts; ex_turn 0 0 0 ts; ex_sensor MAGNETOMETER 1 2 3 ts].
Example C72_example : Forall (at_rest (3 / 5, 0 / 5, 4 / 5)%R) (ex_still 1000 ++ ex_still 1010) /\
  gyro_first (negb (sc_gyro (sacf0 GYROSCOPE GYROSCOPE : sacf RX) =? -1)%Z) (ex_still 1000 ++ ex_still 1010) /\
  k_int (sacf_gains : cfconf RX) = (Some 0%R : RX) /\ k_acc (sacf_gains : cfconf RX) = (Some (1 / 10)%R : RX) /\
  unit_quat (sc_q (sacf0 GYROSCOPE GYROSCOPE : sacf RX)) 1 0 0 0 /\
  dot3 (3 / 5, 0 / 5, 4 / 5)%R (vertical 1 0 0 0) = (4 / 5)%R /\ count_acc (ex_still 1000 ++ ex_still 1010) = 2%nat.
Proof.
  split. { repeat (constructor; [first [apply points_345 | reflexivity | do 3 eexists; reflexivity]|]). constructor. }
  split. { cbn. repeat split; discriminate. }
  split; [reflexivity|]. split; [unfold sacf_gains; cbn [k_acc]; rewrite rx_lit by lra; reflexivity|].
  split; [split; [reflexivity|ring]|]. split; [unfold dot3, vertical, r31, r32, r33; field|reflexivity].
Qed.
(** theta and rho of a device tilted by 0.1 about both axes *)
Example C72_tilt_example : (- (PI / 2) < 1 / 10 < PI / 2)%R /\ (-1 < cos (1 / 10) * cos (1 / 10))%R.
Proof. pose proof PI2_1 as P. split; [lra|]. pose proof (Rle_0_sqr (cos (1 / 10))) as Q. unfold Rsqr in Q. lra. Qed.

(** a gain the constructor accepts with which a tilt of 53 degrees stays *)
Theorem C72_gain_refuted : exists (k : cfconf RX) (m : stamped (sensor RX)), real_gains k /\ is_acc m = true /\
  forall n, exists c w x y z, sacf_run 3 k (sacf0 GYROSCOPE GYROSCOPE) (repeat m n) = Ok c /\ unit_quat (sc_q c) w x y z /\
  points_to (3 / 5, 0 / 5, 4 / 5)%R (s_val (st_data m)) /\ dot3 (3 / 5, 0 / 5, 4 / 5)%R (vertical w x y z) = (4 / 5)%R.
Proof.
  exists (mkCfc (Some (5 / 2)%R : RX) (Some 0%R : RX) (Some 0%R : RX) (Some 0%R : RX)), (ex_sensor ACCELEROMETER 3 0 4 1000).
  split; [do 3 eexists; cbn; auto|]. split; [reflexivity|]. intros n.
  destruct (@C72_stuck 3 (mkCfc (Some (5 / 2)%R : RX) (Some 0%R : RX) (Some 0%R : RX) (Some 0%R : RX)) (3 / 5, 0 / 5, 4 / 5)%R (5 / 2)
    (repeat (ex_sensor ACCELEROMETER 3 0 4 1000) n) eq_refl ltac:(lra)) with (c := sacf0 GYROSCOPE GYROSCOPE : sacf RX) (w := 1%R) (x := 0%R) (y := 0%R) (z := 0%R)
    as (c & w & x & y & z & E & U & C).
  - apply Forall_forall. intros m Hm. apply repeat_spec in Hm. subst m. split; [reflexivity|apply points_345].
  - split; [reflexivity|ring].
  - unfold dot3, vertical, r31, r32, r33. field.
  - exists c, w, x, y, z. split; [exact E|]. split; [exact U|]. split; [apply points_345|]. rewrite C. field.
Qed.
Print Assumptions C72_gain_refuted.

(** upside down with the default gains, in doubles: never noticed *)
Theorem C72_flip_refuted : forall n, exists c, sacf_run 3 sacf_gains (sacf0 GYROSCOPE GYROSCOPE : sacf SF)
    (repeat (ex_sensor ACCELEROMETER 0 0 (-10) 1000) n) = Ok c /\
  feqb (qw (sc_q c)) f1 = true /\ feqb (qx (sc_q c)) f0 = true /\ feqb (qy (sc_q c)) f0 = true /\ feqb (qz (sc_q c)) f0 = true.
Proof.
  set (m := ex_sensor ACCELEROMETER 0 0 (-10) 1000 : stamped (sensor SF)).
  set (q1 := update_quaternion q_one (v_scale (k_acc sacf_gains) (acc_error q_one (s_val (st_data m)))) : quat SF).
  assert (E1 : update_quaternion q1 (v_scale (k_acc sacf_gains) (acc_error q1 (s_val (st_data m)))) = q1) by (vm_compute; reflexivity).
  assert (R : forall n (c : sacf SF), sc_q c = q_one \/ sc_q c = q1 -> exists c', sacf_run 3 sacf_gains c (repeat m n) = Ok c' /\ (sc_q c' = q_one \/ sc_q c' = q1)).
  { induction n as [|n IH]; intros c Hc; [exists c; auto|]. cbn [repeat sacf_run].
    change (s_type (st_data m)) with ACCELEROMETER in *. unfold sacf_update at 1. change (s_type (st_data m)) with ACCELEROMETER. cbv iota. cbn [bind].
    apply IH. right. unfold sacf_stamp, sacf_accel. cbn [sc_q]. destruct Hc as [-> | ->]; [reflexivity|exact E1]. }
  intros n. destruct (R n (sacf0 GYROSCOPE GYROSCOPE) (or_introl eq_refl)) as (c & E & [H|H]); exists c; (split; [exact E|]); rewrite H; vm_compute; auto.
Qed.
Print Assumptions C72_flip_refuted.

(** ** C73: magnetometer before the gyroscope runs *)
(** one sample: the field in global coordinates (b1,b2,b3) moves to
    (al b1, al b2 + be h, (al+be) b3) *)
Theorem C73_turn fuel (k : cfconf RX) (c c' : sacf RX) m w x y z a b d km :
  is_mag m = true -> sc_gyro c = (-1)%Z -> real_vec (s_val (st_data m)) a b d -> (/ IZR (2 ^ 52) < norm3 a b d)%R ->
  unit_quat (sc_q c) w x y z -> k_mag k = (Some km : RX) -> sacf_update fuel k c m = Ok c' ->
  exists w' x' y' z', unit_quat (sc_q c') w' x' y' z' /\
  let '(m1, m2, m3) := direction a b d in
  let b1 := glob_x w x y z m1 m2 m3 in let b2 := glob_y w x y z m1 m2 m3 in let b3 := glob_z w x y z m1 m2 m3 in
  let h := sqrt (b1 * b1 + b2 * b2) in let D := (b2 * h + b3 * b3)%R in
  let N := (1 + km * km / 4 * (1 - D * D))%R in let al := ((1 - km * km / 4 * (1 - D * D) - km * D) / N)%R in let be := (km / N)%R in
  (h * h + b3 * b3 = 1)%R /\ (-1 <= D <= 1)%R /\
  (glob_x w' x' y' z' m1 m2 m3 = al * b1)%R /\ (glob_y w' x' y' z' m1 m2 m3 = al * b2 + be * h)%R /\
  (glob_z w' x' y' z' m1 m2 m3 = (al + be) * b3)%R.
Proof.
  intros Hm Hg Hv Hn HU Hk E.
  assert (Et : s_type (st_data m) = MAGNETOMETER) by (unfold is_mag in Hm; destruct (s_type (st_data m)); try discriminate Hm; reflexivity).
  rewrite <- (forget_recall c), update_forget in E. inv_bind E. injection Hb as <-.
  destruct (@magnet_any fuel k (recall c) m a0 w x y z a b d km Et Hg Hv Hn HU Hk Ha) as (_ & w' & x' & y' & z' & U & M).
  exists w', x', y', z'. split; [exact U|]. destruct (direction a b d) as [[m1 m2] m3]. cbv zeta in *.
  replace (km * km / 4)%R with (km / 2 * (km / 2))%R by field.
  assert (E2 : (2 * (km / 2) = km)%R) by field. rewrite E2 in M. exact M.
Qed.
Print Assumptions C73_turn.

(** repeated: the cotangent of the angle between the horizontal field and
    north grows without bound *)
Theorem C73_north fuel (k : cfconf RX) m1 m2 m3 km ms (c : sacf RX) w x y z :
  (3 <= fuel)%nat -> real_gains k -> k_mag k = (Some km : RX) -> (0 < km <= 1 / 2)%R ->
  Forall (fun m => is_mag m = true /\ points_to (m1, m2, m3) (s_val (st_data m))) ms ->
  unit_quat (sc_q c) w x y z -> (exists e1 e2 e3, real_vec (sc_interr c) e1 e2 e3) -> sc_gyro c = (-1)%Z ->
  glob_x w x y z m1 m2 m3 <> 0%R ->
  exists c' w' x' y' z', sacf_run fuel k c ms = Ok c' /\ unit_quat (sc_q c') w' x' y' z' /\ glob_x w' x' y' z' m1 m2 m3 <> 0%R /\
    (glob_y w x y z m1 m2 m3 / Rabs (glob_x w x y z m1 m2 m3) + INR (List.length ms) * (km / (1 + km)) <=
     glob_y w' x' y' z' m1 m2 m3 / Rabs (glob_x w' x' y' z' m1 m2 m3))%R.
Proof.
  intros Hf Hg Hk Km HR HU HI Hgy Hb.
  destruct (@north_run fuel k m1 m2 m3 km ms Hf Hg Hk Km) with (c := recall c) (w := w) (x := x) (y := y) (z := z) as (c' & w' & x' & y' & z' & R1 & R2 & R3 & R4); auto.
  - eapply Forall_impl; [|exact HR]. intros m [Hm Hp]. split; [|exact Hp].
    unfold is_mag in Hm. destruct (s_type (st_data m)); try discriminate Hm; reflexivity.
  - exists (forget c'), w', x', y', z'. rewrite <- (forget_recall c), run_forget, R1. auto.
Qed.
Print Assumptions C73_north.

Lemma norm_mag : norm3 12 9 20 = 25%R.
Proof. unfold norm3. replace (12 * 12 + 9 * 9 + 20 * 20)%R with (25 * 25)%R by ring. apply sqrt_square. lra. Qed.
Lemma points_mag ts : points_to (12 / 25, 9 / 25, 20 / 25)%R (s_val (st_data (ex_sensor MAGNETOMETER 12 9 20 ts : stamped (sensor RX)))).
Proof.
  exists 12%R, 9%R, 20%R. split; [reflexivity|]. unfold direction. rewrite norm_mag. split; [|reflexivity]. pose proof feps_small. lra.
Qed.
Example C73_example : let c := sacf0 GYROSCOPE GYROSCOPE : sacf RX in
  Forall (fun m => is_mag m = true /\ points_to (12 / 25, 9 / 25, 20 / 25)%R (s_val (st_data m)))
    [ex_sensor MAGNETOMETER 12 9 20 1000 : stamped (sensor RX); ex_sensor MAGNETOMETER 12 9 20 1010] /\
  unit_quat (sc_q c) 1 0 0 0 /\ (exists e1 e2 e3, real_vec (sc_interr c) e1 e2 e3) /\ sc_gyro c = (-1)%Z /\
  glob_x 1 0 0 0 (12 / 25) (9 / 25) (20 / 25) <> 0%R /\ k_mag (sacf_gains : cfconf RX) = (Some (5 / 100)%R : RX).
Proof.
  cbv zeta. split; [repeat (constructor; [split; [reflexivity|apply points_mag]|]); constructor|].
  split; [split; [reflexivity|ring]|]. split; [do 3 eexists; reflexivity|]. split; [reflexivity|]. split.
  - unfold glob_x, r11, r12, r13. lra.
  - unfold sacf_gains. cbn [k_mag]. rewrite rx_lit by lra. reflexivity.
Qed.

(** the correction is not about the vertical: with an inclined field a level
    device is estimated tilted after one sample *)
Theorem C73_level_refuted : exists (m : stamped (sensor RX)) c w x y z, is_mag m = true /\
  sacf_run 3 sacf_gains (sacf0 GYROSCOPE GYROSCOPE) [m] = Ok c /\ unit_quat (sc_q c) w x y z /\
  vertical 1 0 0 0 = (0, 0, 1)%R /\ vertical w x y z <> (0, 0, 1)%R.
Proof.
  set (m := ex_sensor MAGNETOMETER 12 9 20 1000 : stamped (sensor RX)).
  destruct (@cf_run_good 3 sacf_gains [m] ltac:(lia) gains_real ltac:(constructor; [do 3 eexists; reflexivity|constructor]) (recall (sacf0 GYROSCOPE GYROSCOPE))) as (c & E & G).
  { split; [exists 1%R, 0%R, 0%R, 0%R; split; [reflexivity|ring]|do 3 eexists; reflexivity]. }
  cbn [cf_run] in E. inv_bind E. injection Hb as ->.
  assert (HN : (/ IZR (2 ^ 52) < norm3 12 9 20)%R) by (rewrite norm_mag; pose proof feps_small; lra).
  assert (K : k_mag (sacf_gains : cfconf RX) = (Some (5 / 100)%R : RX)) by (unfold sacf_gains; cbn [k_mag]; rewrite rx_lit by lra; reflexivity).
  destruct (@magnet_any 3 sacf_gains (recall (sacf0 GYROSCOPE GYROSCOPE)) m c 1 0 0 0 12 9 20 (5 / 100) eq_refl eq_refl eq_refl HN) as (_ & w & x & y & z & U & M); auto.
  { split; [reflexivity|ring]. }
  exists m, (forget c), w, x, y, z. split; [reflexivity|]. split.
  { rewrite <- (forget_recall (sacf0 _ _)), run_forget. cbn [cf_run]. rewrite Ha. reflexivity. }
  split; [exact U|]. split; [unfold vertical, r31, r32, r33; f_equal; [f_equal|]; ring|]. intros V.
  unfold direction in M. rewrite norm_mag in M. cbv zeta in M. destruct M as (_ & _ & _ & _ & M).
  assert (EZ : glob_z w x y z (12 / 25) (9 / 25) (20 / 25) = (20 / 25)%R).
  { unfold vertical in V. injection V as V1 V2 V3. unfold glob_z. rewrite V1, V2, V3. field. }
  assert (E1 : glob_x 1 0 0 0 (12 / 25) (9 / 25) (20 / 25) = (12 / 25)%R) by (unfold glob_x, r11, r12, r13; field).
  assert (E2 : glob_y 1 0 0 0 (12 / 25) (9 / 25) (20 / 25) = (9 / 25)%R) by (unfold glob_y, r21, r22, r23; field).
  assert (E3 : glob_z 1 0 0 0 (12 / 25) (9 / 25) (20 / 25) = (20 / 25)%R) by (unfold glob_z, r31, r32, r33; field).
  rewrite EZ, E1, E2, E3 in M. replace (12 / 25 * (12 / 25) + 9 / 25 * (9 / 25))%R with (3 / 5 * (3 / 5))%R in M by field.
  rewrite sqrt_square in M by lra. apply Rmult_eq_compat_l with (r := (5 / 4)%R) in M.
  field_simplify in M; lra.
Qed.
Print Assumptions C73_level_refuted.
