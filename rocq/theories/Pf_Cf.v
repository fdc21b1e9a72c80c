(** Complementary filter and sensor fusion over the reals (C44, C47). *)
From Coq Require Import Reals Lra Lia ZArith.
From Verif Require Import Base Lib NumReal LibR Sensors Spec_Sensors Pf_Angle.
Set Implicit Arguments.
Local Open Scope R_scope.
Local Notation x2 x := (Some x : RX).

(** * atan2 gives polar coordinates *)
Lemma atan2_range y x : - PI < Ratan2 y x <= PI.
Proof.
  assert (P := PI_RGT_0). unfold Ratan2. destruct (Rltb 0 x) eqn:E1.
  { pose proof (atan_bound (y / x)). lra. }
  destruct (Rltb x 0) eqn:E2.
  - apply Rltb_true in E2. destruct (Rleb 0 y) eqn:E3; [apply Rleb_true in E3|apply Rleb_false in E3].
    + pose proof (atan_bound (y / x)).
      assert (y / x <= 0). { unfold Rdiv. pose proof (Rinv_lt_0_compat _ E2). nra. }
      assert (atan (y / x) <= 0). { destruct (Req_dec (y / x) 0) as [->|]; [rewrite atan_0; lra|].
        pose proof (atan_increasing (y / x) 0). rewrite atan_0 in *. lra. }
      lra.
    + pose proof (atan_bound (y / x)).
      assert (0 < y / x). { unfold Rdiv. pose proof (Rinv_lt_0_compat _ E2). nra. }
      pose proof (atan_increasing 0 (y / x)). rewrite atan_0 in *. lra.
  - destruct (Rltb 0 y); [lra|]. destruct (Rltb y 0); lra.
Qed.

Lemma sqrt_1_sq t : 0 < sqrt (1 + t * t) /\ sqrt (1 + t * t) * sqrt (1 + t * t) = 1 + t * t.
Proof. pose proof (Rle_0_sqr t) as H. unfold Rsqr in H. split; [apply sqrt_lt_R0; lra|apply sqrt_sqrt; lra]. Qed.

Lemma hyp_pos x y : x <> 0 -> sqrt (x * x + y * y) = Rabs x * sqrt (1 + (y / x) * (y / x)).
Proof.
  intros Hx. replace (x * x + y * y) with ((x * x) * (1 + (y / x) * (y / x))) by (field; exact Hx).
  rewrite sqrt_mult.
  - f_equal. replace (x * x) with (Rsqr x) by reflexivity. apply sqrt_Rsqr_abs.
  - pose proof (Rle_0_sqr x). unfold Rsqr in *. lra.
  - pose proof (Rle_0_sqr (y / x)). unfold Rsqr in *. lra.
Qed.

Lemma cos_atan' t : cos (atan t) = / sqrt (1 + t * t).
Proof. rewrite cos_atan. unfold Rsqr, Rdiv. ring. Qed.
Lemma sin_atan' t : sin (atan t) = t / sqrt (1 + t * t).
Proof. rewrite sin_atan. reflexivity. Qed.

Lemma atan2_polar y x : let r := sqrt (x * x + y * y) in x = r * cos (Ratan2 y x) /\ y = r * sin (Ratan2 y x).
Proof.
  cbv zeta. unfold Ratan2. destruct (Rltb 0 x) eqn:E1; [apply Rltb_true in E1|apply Rltb_false in E1].
  { rewrite hyp_pos by lra. rewrite cos_atan', sin_atan', Rabs_right by lra.
    destruct (sqrt_1_sq (y / x)) as [H _]. split; field; repeat split; lra. }
  destruct (Rltb x 0) eqn:E2; [apply Rltb_true in E2|apply Rltb_false in E2].
  - rewrite hyp_pos by lra. rewrite Rabs_left by lra. destruct (sqrt_1_sq (y / x)) as [H _].
    destruct (Rleb 0 y).
    + rewrite neg_cos, neg_sin, cos_atan', sin_atan'. split; field; repeat split; lra.
    + replace (atan (y / x) - PI) with (- (PI - atan (y / x))) by ring.
      rewrite cos_neg, sin_neg, Rtrigo_facts.cos_pi_minus, Rtrigo_facts.sin_pi_minus, cos_atan', sin_atan'.
      split; field; repeat split; lra.
  - assert (x = 0) by lra. subst x. replace (0 * 0 + y * y) with (Rsqr y) by (unfold Rsqr; ring).
    rewrite sqrt_Rsqr_abs. destruct (Rltb 0 y) eqn:E3; [apply Rltb_true in E3|apply Rltb_false in E3].
    + rewrite cos_PI2, sin_PI2, Rabs_right by lra. lra.
    + destruct (Rltb y 0) eqn:E4; [apply Rltb_true in E4|apply Rltb_false in E4].
      * rewrite cos_neg, sin_neg, cos_PI2, sin_PI2, Rabs_left by lra. lra.
      * assert (y = 0) by lra. subst y. rewrite Rabs_R0. lra.
Qed.

(** * Quaternions *)
Ltac rx := repeat first [rewrite rx_mul | rewrite rx_add | rewrite rx_sub | rewrite rx_opp | rewrite rx_ofZ | rewrite rx_f0 | rewrite rx_f1].

Lemma q_norm_real w x y z : q_norm (mkQ (x2 w) (x2 x) (x2 y) (x2 z)) = x2 (sqrt (w * w + x * x + y * y + z * z)).
Proof.
  unfold q_norm. cbn [qw qx qy qz]. rx. rewrite rx_sqrt; [reflexivity|].
  pose proof (Rle_0_sqr w). pose proof (Rle_0_sqr x). pose proof (Rle_0_sqr y). pose proof (Rle_0_sqr z).
  unfold Rsqr in *. lra.
Qed.

Lemma feps_small : (/ IZR (2 ^ 52) < 1)%R.
Proof. rewrite <- (Rinv_1). apply Rinv_lt_contravar; lra. Qed.

Lemma q_normalized_real w x y z : 1 <= w * w + x * x + y * y + z * z ->
  let n := sqrt (w * w + x * x + y * y + z * z) in
  1 <= n /\ q_normalized (mkQ (x2 w) (x2 x) (x2 y) (x2 z)) = mkQ (x2 (w / n)) (x2 (x / n)) (x2 (y / n)) (x2 (z / n)).
Proof.
  intros H. cbv zeta. set (n := sqrt _).
  assert (Hn : 1 <= n) by (subst n; rewrite <- sqrt_1; apply sqrt_le_1; lra).
  split; [exact Hn|]. unfold q_normalized. rewrite q_norm_real. fold n. rewrite rx_abs.
  change (feps : RX) with (x2 (/ IZR (2 ^ 52))). rewrite rx_ltb.
  assert (L : Rltb (/ IZR (2 ^ 52)) (Rabs n) = true).
  { apply Rltb_true. rewrite Rabs_right by lra. pose proof feps_small. lra. }
  rewrite L. cbn [qw qx qy qz]. rewrite !rx_div by lra. reflexivity.
Qed.

(** q * (1 + v/2), before normalisation *)
Definition grow (w x y z a b c : R) : R * R * R * R :=
  (w + (- x * a - y * b - z * c) / 2, x + (w * a + y * c - z * b) / 2,
   y + (w * b - x * c + z * a) / 2, z + (w * c + x * b - y * a) / 2).

Lemma update_quaternion_real w x y z a b c : w * w + x * x + y * y + z * z = 1 ->
  let '(w', x', y', z') := grow w x y z a b c in
  let n := sqrt (1 + (a * a + b * b + c * c) / 4) in
  1 <= n /\ n * n = 1 + (a * a + b * b + c * c) / 4 /\
  w' * w' + x' * x' + y' * y' + z' * z' = n * n /\
  update_quaternion (mkQ (x2 w) (x2 x) (x2 y) (x2 z)) (mkV (x2 a) (x2 b) (x2 c)) =
    mkQ (x2 (w' / n)) (x2 (x' / n)) (x2 (y' / n)) (x2 (z' / n)).
Proof.
  intros H. unfold grow. cbv zeta beta iota.
  set (w' := w + _). set (x' := x + _). set (y' := y + _). set (z' := z + _).
  assert (ES : w' * w' + x' * x' + y' * y' + z' * z' = 1 + (a * a + b * b + c * c) / 4).
  { subst w' x' y' z'. transitivity ((w * w + x * x + y * y + z * z) * (1 + (a * a + b * b + c * c) / 4)); [field|rewrite H; ring]. }
  assert (P : 0 <= a * a + b * b + c * c).
  { pose proof (Rle_0_sqr a). pose proof (Rle_0_sqr b). pose proof (Rle_0_sqr c). unfold Rsqr in *. lra. }
  assert (P1 : 1 <= w' * w' + x' * x' + y' * y' + z' * z') by (rewrite ES; lra).
  destruct (@q_normalized_real w' x' y' z' P1) as [Hn E]. rewrite ES in Hn, E.
  split; [exact Hn|]. split; [apply sqrt_sqrt; lra|]. split; [rewrite ES; symmetry; apply sqrt_sqrt; lra|].
  rewrite <- E. unfold update_quaternion, q_add, q_scale, q_mul, q_of_vec. cbn [qw qx qy qz vx vy vz].
  rewrite rx_lit by lra. rx. f_equal. f_equal; f_equal; subst w' x' y' z'; field.
Qed.

Lemma update_unit q w x y z a b c : unit_quat q w x y z ->
  exists w' x' y' z', unit_quat (update_quaternion q (mkV (x2 a) (x2 b) (x2 c))) w' x' y' z'.
Proof.
  intros [-> H]. pose proof (@update_quaternion_real w x y z a b c H) as U. unfold grow in U. cbv zeta beta iota in U.
  destruct U as (Hn & Hnn & Hs & E). rewrite E.
  do 4 eexists. split; [reflexivity|]. revert Hs. set (n := sqrt _) in *.
  set (W := w + _). set (X := x + _). set (Y := y + _). set (Z := z + _). intros Hs.
  replace (W / n * (W / n) + X / n * (X / n) + Y / n * (Y / n) + Z / n * (Z / n))
    with ((W * W + X * X + Y * Y + Z * Z) / (n * n)) by (field; lra).
  rewrite Hs. field. lra.
Qed.

Lemma v_mag_real' x y z : v_mag (mkV (x2 x) (x2 y) (x2 z)) = x2 (norm3 x y z).
Proof.
  unfold v_mag. cbn [vx vy vz]. rx. rewrite rx_sqrt; [reflexivity|].
  pose proof (Rle_0_sqr x) as A. pose proof (Rle_0_sqr y) as B. pose proof (Rle_0_sqr z) as C. unfold Rsqr in *. lra.
Qed.
Lemma norm3_pos x y z : 0 <= norm3 x y z. Proof. apply sqrt_pos. Qed.

Lemma v_normalized_real x y z : exists x' y' z',
  v_normalized (mkV (x2 x) (x2 y) (x2 z)) = mkV (x2 x') (x2 y') (x2 z') /\
  (/ IZR (2 ^ 52) < norm3 x y z -> x' = x / norm3 x y z /\ y' = y / norm3 x y z /\ z' = z / norm3 x y z /\
     x' * x' + y' * y' + z' * z' = 1).
Proof.
  unfold v_normalized. rewrite v_mag_real', rx_abs. change (feps : RX) with (x2 (/ IZR (2 ^ 52))). rewrite rx_ltb.
  rewrite Rabs_right by (apply Rle_ge, norm3_pos).
  destruct (Rltb _ _) eqn:E; [apply Rltb_true in E|apply Rltb_false in E].
  - assert (P : 0 < norm3 x y z). { eapply Rlt_trans; [|exact E]. apply Rinv_0_lt_compat. lra. }
    cbn [vx vy vz]. rewrite !rx_div by lra. do 3 eexists. split; [reflexivity|]. intros _. repeat split.
    assert (Q : norm3 x y z * norm3 x y z = x * x + y * y + z * z).
    { apply sqrt_sqrt. pose proof (Rle_0_sqr x). pose proof (Rle_0_sqr y). pose proof (Rle_0_sqr z). unfold Rsqr in *. lra. }
    set (n := norm3 x y z) in *.
    replace (x / n * (x / n) + y / n * (y / n) + z / n * (z / n)) with ((x * x + y * y + z * z) / (n * n)) by (field; lra).
    rewrite Q. field. nra.
  - do 3 eexists. split; [reflexivity|]. lra.
Qed.

(** * Errors *)
Lemma acc_error_real w x y z a b c : w * w + x * x + y * y + z * z = 1 ->
  forall a' b' c', v_normalized (mkV (x2 a) (x2 b) (x2 c)) = mkV (x2 a') (x2 b') (x2 c') ->
  let g1 := r31 w x y z in let g2 := r32 w x y z in let g3 := r33 w x y z in
  acc_error (mkQ (x2 w) (x2 x) (x2 y) (x2 z)) (mkV (x2 a) (x2 b) (x2 c)) =
    mkV (x2 (b' * g3 - c' * g2)) (x2 (c' * g1 - a' * g3)) (x2 (a' * g2 - b' * g1)).
Proof.
  intros H a' b' c' E. cbv zeta. unfold acc_error. rewrite E. unfold v_cross, q_vec, q_mul, q_conj. cbn [qw qx qy qz vx vy vz].
  rx.
  assert (G3 : w * w - x * x - y * y + z * z = r33 w x y z) by (unfold r33; lra).
  unfold r31, r32 in *. f_equal; f_equal; rewrite <- ?G3; ring.
Qed.

Definition rq (q : quat RX) : Prop := exists w x y z, real_quat q w x y z.
Definition rv (v : vec3 RX) : Prop := exists x y z, real_vec v x y z.
Lemma rq_mul a b : rq a -> rq b -> rq (q_mul a b).
Proof.
  intros (w & x & y & z & ->) (w' & x' & y' & z' & ->). unfold q_mul. cbn [qw qx qy qz]. rx. do 4 eexists. reflexivity.
Qed.
Lemma rq_conj a : rq a -> rq (q_conj a).
Proof. intros (w & x & y & z & ->). do 4 eexists. reflexivity. Qed.
Lemma rq_of v : rv v -> rq (q_of_vec v).
Proof. intros (x & y & z & ->). do 4 eexists. reflexivity. Qed.
Lemma rv_of q : rq q -> rv (q_vec q).
Proof. intros (w & x & y & z & ->). do 3 eexists. reflexivity. Qed.
Lemma rv_cross a b : rv a -> rv b -> rv (v_cross a b).
Proof. intros (x & y & z & ->) (x' & y' & z' & ->). unfold v_cross. cbn [vx vy vz]. rx. do 3 eexists. reflexivity. Qed.

Lemma mag_error_real q v : rq q -> rv v -> rv (mag_error q v).
Proof.
  intros Hq Hv. unfold mag_error.
  assert (G : rv (q_vec (q_mul (q_mul q (q_of_vec v)) (q_conj q)))) by auto using rq_mul, rq_conj, rq_of, rv_of.
  destruct G as (a & b & c & ->). cbn [vx vy vz]. rewrite !rx_mul, rx_add, rx_sqrt.
  - apply rv_cross; [exact Hv|]. apply rv_of, rq_mul; [apply rq_mul; [apply rq_conj; exact Hq|]|exact Hq].
    apply rq_of. do 3 eexists. reflexivity.
  - pose proof (Rle_0_sqr a). pose proof (Rle_0_sqr b). unfold Rsqr in *. lra.
Qed.

Lemma int_error_real k e1 e2 e3 d1 d2 d3 i : k_int k = x2 i ->
  exists f1 f2 f3, int_error k (mkV (x2 e1) (x2 e2) (x2 e3)) (mkV (x2 d1) (x2 d2) (x2 d3)) = mkV (x2 f1) (x2 f2) (x2 f3).
Proof.
  intros H. unfold int_error, cf_eps. rewrite H, rx_lit, rx_ltb by lra.
  destruct (Rltb _ _); unfold v_add, v_scale, v0; cbn [vx vy vz]; rx; do 3 eexists; reflexivity.
Qed.

(** * Euler angles *)
Lemma asin_defined s : Rabs s < 1 -> fasin (x2 s) = x2 (asin s).
Proof.
  intros H. apply Rabs_def2 in H as [H1 H2]. cbn. unfold rasin.
  assert (A : Rleb (-1) s = true) by (apply Rleb_true; lra). assert (B : Rleb s 1 = true) by (apply Rleb_true; lra).
  rewrite A, B. reflexivity.
Qed.

Lemma sinp_bound w x y z : w * w + x * x + y * y + z * z = 1 -> - 1 <= 2 * (w * y - z * x) <= 1.
Proof.
  intros H. pose proof (Rle_0_sqr (w + y)). pose proof (Rle_0_sqr (w - y)). pose proof (Rle_0_sqr (z + x)). pose proof (Rle_0_sqr (z - x)).
  unfold Rsqr in *. split; nra.
Qed.

Lemma euler_real w x y z : w * w + x * x + y * y + z * z = 1 ->
  exists roll pitch yaw, q_euler (mkQ (x2 w) (x2 x) (x2 y) (x2 z)) = (x2 roll, x2 pitch, x2 yaw) /\
    - PI < roll <= PI /\ - (PI / 2) <= pitch <= PI / 2 /\ - PI < yaw <= PI /\
    r31 w x y z = - sin pitch /\
    r11 w x y z = cos pitch * cos yaw /\ r21 w x y z = cos pitch * sin yaw /\
    r32 w x y z = cos pitch * sin roll /\ r33 w x y z = cos pitch * cos roll.
Proof.
  intros H. assert (P := PI_RGT_0). pose proof (sinp_bound H) as HS.
  unfold q_euler. cbn [qw qx qy qz]. rx.
  set (s := 2 * (w * y - z * x)) in *.
  change (fatan2 (x2 (2 * (w * x + y * z))) (x2 (1 - 2 * (x * x + y * y)))) with (x2 (Ratan2 (2 * (w * x + y * z)) (1 - 2 * (x * x + y * y)))).
  change (fatan2 (x2 (2 * (w * z + x * y))) (x2 (1 - 2 * (y * y + z * z)))) with (x2 (Ratan2 (2 * (w * z + x * y)) (1 - 2 * (y * y + z * z)))).
  assert (HP : exists pitch, (if (x2 1 <=! fabs (x2 s)) then fcopysign (fpi /! x2 2) (x2 s) else fasin (x2 s)) = x2 pitch /\
    - (PI / 2) <= pitch <= PI / 2 /\ sin pitch = s).
  { rewrite rx_abs, rx_leb. destruct (Rleb 1 (Rabs s)) eqn:E; [apply Rleb_true in E|apply Rleb_false in E].
    - change (fpi : RX) with (x2 PI). rewrite rx_div by lra.
      change (fcopysign (x2 (PI / 2)) (x2 s)) with (x2 (if Rltb s 0 then - Rabs (PI / 2) else Rabs (PI / 2))).
      rewrite (Rabs_right (PI / 2)) by lra. destruct (Rltb s 0) eqn:E2; [apply Rltb_true in E2|apply Rltb_false in E2].
      + exists (- (PI / 2)). rewrite Rabs_left in E by lra. rewrite sin_neg, sin_PI2. repeat split; lra.
      + exists (PI / 2). rewrite Rabs_right in E by lra. rewrite sin_PI2. repeat split; lra.
    - rewrite asin_defined by exact E. exists (asin s). split; [reflexivity|]. split; [pose proof (asin_bound s); lra|].
      apply sin_asin. apply Rabs_def2 in E. lra. }
  destruct HP as (pitch & -> & Hr & Hsin).
  assert (Hc : cos pitch = sqrt (1 - s * s)).
  { pose proof (cos_ge_0 pitch ltac:(lra) ltac:(lra)) as C0. rewrite <- Hsin.
    symmetry. replace (1 - sin pitch * sin pitch) with (Rsqr (cos pitch)).
    - rewrite sqrt_Rsqr_abs, Rabs_right by lra. reflexivity.
    - rewrite cos2. unfold Rsqr. ring. }
  do 3 eexists. split; [reflexivity|].
  split; [apply atan2_range|]. split; [exact Hr|]. split; [apply atan2_range|].
  split; [unfold r31; rewrite Hsin; subst s; ring|]. rewrite Hc.
  destruct (atan2_polar (2 * (w * z + x * y)) (1 - 2 * (y * y + z * z))) as [Y1 Y2].
  destruct (atan2_polar (2 * (w * x + y * z)) (1 - 2 * (x * x + y * y))) as [R1 R2].
  assert (Q1 : (1 - 2 * (y * y + z * z)) * (1 - 2 * (y * y + z * z)) + (2 * (w * z + x * y)) * (2 * (w * z + x * y)) = 1 - s * s).
  { subst s. replace (1 - 2 * (y * y + z * z)) with (w * w + x * x - y * y - z * z) by lra.
    transitivity ((w * w + x * x + y * y + z * z) * (w * w + x * x + y * y + z * z) - 2 * (w * y - z * x) * (2 * (w * y - z * x))); [ring|rewrite H; ring]. }
  assert (Q2 : (1 - 2 * (x * x + y * y)) * (1 - 2 * (x * x + y * y)) + (2 * (w * x + y * z)) * (2 * (w * x + y * z)) = 1 - s * s).
  { subst s. replace (1 - 2 * (x * x + y * y)) with (w * w + z * z - x * x - y * y) by lra.
    transitivity ((w * w + x * x + y * y + z * z) * (w * w + x * x + y * y + z * z) - 2 * (w * y - z * x) * (2 * (w * y - z * x))); [ring|rewrite H; ring]. }
  rewrite Q1 in Y1, Y2. rewrite Q2 in R1, R2.
  split; [unfold r11; exact Y1|]. split; [unfold r21; rewrite <- Y2; ring|].
  split; [unfold r32; rewrite <- R2; ring|unfold r33; exact R1].
Qed.

(** * Magnetic azimuth *)
Lemma to_mpp_small fuel x : (3 <= fuel)%nat -> - PI < x < 3 * PI -> exists y, to_mpp fuel (x2 x) = Ok y.
Proof.
  intros Hf Hx. assert (P := PI_RGT_0). destruct (@down_enough 1 fuel x) as [y Hy]; [lia|cbn; lra|].
  unfold to_mpp. rewrite Hy. cbn [bind]. destruct (down_sound _ _ Hy) as (k & -> & H1 & H2).
  apply (@up_enough 1 fuel); [lia|]. cbn.
  destruct (Rlt_dec x PI) as [L|L].
  - destruct fuel; [lia|]. rewrite down_stop in Hy by exact L. injection Hy as Hy. lra.
  - destruct fuel as [|fuel]; [lia|]. rewrite down_le in Hy by lra. destruct fuel as [|fuel]; [lia|].
    rewrite down_stop in Hy by lra. injection Hy as Hy. lra.
Qed.

Lemma period_Z x k : cos (x + 2 * PI * IZR k) = cos x /\ sin (x + 2 * PI * IZR k) = sin x.
Proof.
  destruct (Z_le_gt_dec 0 k) as [L|L].
  - rewrite <- (Z2Nat.id k L), <- INR_IZR_INZ. replace (2 * PI * INR (Z.to_nat k)) with (2 * INR (Z.to_nat k) * PI) by ring.
    rewrite cos_period, sin_period. auto.
  - set (n := Z.to_nat (- k)). assert (E : IZR k = - INR n).
    { subst n. rewrite INR_IZR_INZ, Z2Nat.id, opp_IZR by lia. ring. }
    rewrite E. set (y := x + 2 * PI * - INR n). replace x with (y + 2 * INR n * PI) by (subst y; ring).
    rewrite cos_period, sin_period. auto.
Qed.

(** the two-angle form of a rotation by a quaternion (s, 0, 0, c) *)
Lemma turned w x y z a b c s k : w * w + x * x + y * y + z * z = 1 ->
  let X := glob_x w x y z a b c in let Y := glob_y w x y z a b c in
  let v := q_vec (q_mul (q_mul (q_mul (mkQ (x2 s) (x2 0) (x2 0) (x2 k)) (mkQ (x2 w) (x2 x) (x2 y) (x2 z)))
                               (mkQ (x2 0) (x2 a) (x2 b) (x2 c)))
                        (q_conj (q_mul (mkQ (x2 s) (x2 0) (x2 0) (x2 k)) (mkQ (x2 w) (x2 x) (x2 y) (x2 z))))) in
  vx v = x2 ((s * s - k * k) * X - 2 * s * k * Y) /\ vy v = x2 (2 * s * k * X + (s * s - k * k) * Y).
Proof.
  intros H. cbv zeta.
  assert (E1 : r11 w x y z = w * w + x * x - y * y - z * z) by (unfold r11; lra).
  assert (E2 : r22 w x y z = w * w - x * x + y * y - z * z) by (unfold r22; lra).
  assert (E0 : exists w' x' y' z', q_mul (mkQ (x2 s) (x2 0) (x2 0) (x2 k)) (mkQ (x2 w) (x2 x) (x2 y) (x2 z)) =
    mkQ (x2 w') (x2 x') (x2 y') (x2 z') /\ w' = s * w - k * z /\ x' = s * x - k * y /\ y' = s * y + k * x /\ z' = s * z + k * w).
  { unfold q_mul. cbn [qw qx qy qz]. rx. do 4 eexists. split; [reflexivity|]. repeat split; ring. }
  destruct E0 as (w' & x' & y' & z' & -> & -> & -> & -> & ->).
  set (w' := s * w - k * z). set (x' := s * x - k * y). set (y' := s * y + k * x). set (z' := s * z + k * w).
  assert (E3 : exists p q r t, q_mul (mkQ (x2 w') (x2 x') (x2 y') (x2 z')) (mkQ (x2 0) (x2 a) (x2 b) (x2 c)) =
    mkQ (x2 p) (x2 q) (x2 r) (x2 t) /\ p = - x' * a - y' * b - z' * c /\ q = w' * a + y' * c - z' * b /\
      r = w' * b - x' * c + z' * a /\ t = w' * c + x' * b - y' * a).
  { unfold q_mul. cbn [qw qx qy qz]. rx. do 4 eexists. split; [reflexivity|]. repeat split; ring. }
  destruct E3 as (p & q & r & t & -> & -> & -> & -> & ->).
  unfold q_conj, q_mul, q_vec. cbn [qw qx qy qz vx vy vz]. rx. unfold glob_x, glob_y. rewrite E1, E2.
  unfold r12, r13, r21, r23. subst w' x' y' z'. split; f_equal; ring.
Qed.

Lemma yaw_real w x y z : q_yaw (mkQ (x2 w) (x2 x) (x2 y) (x2 z)) = x2 (Ratan2 (2 * (w * z + x * y)) (1 - 2 * (y * y + z * z))).
Proof. unfold q_yaw, q_euler. cbn [qw qx qy qz snd]. rx. reflexivity. Qed.

Lemma sincos_unit t : sin t * sin t + 0 * 0 + 0 * 0 + cos t * cos t = 1.
Proof. pose proof (sin2_cos2 t). unfold Rsqr in *. lra. Qed.

Lemma magnetic_azimuth_real fuel w x y z a b c : (3 <= fuel)%nat -> w * w + x * x + y * y + z * z = 1 ->
  forall a' b' c' yaw, v_normalized (mkV (x2 a) (x2 b) (x2 c)) = mkV (x2 a') (x2 b') (x2 c') ->
  q_yaw (mkQ (x2 w) (x2 x) (x2 y) (x2 z)) = x2 yaw ->
  let X := glob_x w x y z a' b' c' in let Y := glob_y w x y z a' b' c' in
  let u := cos yaw * X + sin yaw * Y in let v := - sin yaw * X + cos yaw * Y in
  exists A, magnetic_azimuth fuel (mkQ (x2 w) (x2 x) (x2 y) (x2 z)) (mkV (x2 a) (x2 b) (x2 c)) = Ok (x2 A) /\
    - PI <= A < PI /\ let h := sqrt (u * u + v * v) in v = h * cos A /\ u = - (h * sin A).
Proof.
  intros Hf H a' b' c' yaw E EY. cbv zeta. unfold magnetic_azimuth. rewrite E, EY, rx_ofZ, rx_div by lra.
  set (t := yaw / 2). change (fsin (x2 t)) with (x2 (sin t)). change (fcos (x2 t)) with (x2 (cos t)). rewrite rx_f0.
  assert (N : q_normalized (mkQ (x2 (sin t)) (x2 0) (x2 0) (x2 (cos t))) = mkQ (x2 (sin t)) (x2 0) (x2 0) (x2 (cos t))).
  { pose proof (sincos_unit t) as S. assert (S' : 1 <= sin t * sin t + 0 * 0 + 0 * 0 + cos t * cos t) by lra.
    destruct (@q_normalized_real (sin t) 0 0 (cos t) S') as [_ ->]. rewrite S, sqrt_1. f_equal; f_equal; field. }
  rewrite N. unfold q_of_vec. cbn [vx vy vz]. rewrite rx_f0.
  destruct (@turned w x y z a' b' c' (sin t) (cos t) H) as [T1 T2]. cbv zeta in T1, T2. rewrite T1, T2.
  set (X := glob_x w x y z a' b' c'). set (Y := glob_y w x y z a' b' c').
  assert (C : cos t * cos t - sin t * sin t = cos yaw).
  { replace yaw with (2 * t) by (subst t; field). rewrite cos_2a. reflexivity. }
  assert (S : 2 * sin t * cos t = sin yaw).
  { replace yaw with (2 * t) by (subst t; field). rewrite sin_2a. reflexivity. }
  replace ((sin t * sin t - cos t * cos t) * X - 2 * sin t * cos t * Y) with (- (cos yaw * X + sin yaw * Y)) by (rewrite <- C, <- S; ring).
  replace (2 * sin t * cos t * X + (sin t * sin t - cos t * cos t) * Y) with (- (- sin yaw * X + cos yaw * Y)) by (rewrite <- C, <- S; ring).
  set (u := cos yaw * X + sin yaw * Y). set (v := - sin yaw * X + cos yaw * Y).
  change (fatan2 (x2 (- v)) (x2 (- u))) with (x2 (Ratan2 (- v) (- u))).
  change (fpi : RX) with (x2 PI). rewrite rx_div, rx_add by lra.
  pose proof (atan2_range (- v) (- u)) as R. assert (P := PI_RGT_0).
  destruct (@to_mpp_small fuel (PI / 2 + Ratan2 (- v) (- u)) Hf ltac:(lra)) as [A' EA].
  rewrite EA. destruct (to_mpp_sound _ _ EA) as (k & A & -> & EAk & RA).
  exists A. split; [reflexivity|]. split; [exact RA|].
  destruct (atan2_polar (- v) (- u)) as [P1 P2]. cbv zeta in P1, P2.
  replace (- u * - u + - v * - v) with (u * u + v * v) in P1, P2 by ring.
  set (th := Ratan2 (- v) (- u)) in *.
  assert (CA : cos A = - sin th /\ sin A = cos th).
  { rewrite EAk. destruct (period_Z (PI / 2 + th) k) as [-> ->]. rewrite cos_plus, sin_plus, cos_PI2, sin_PI2. split; ring. }
  destruct CA as [-> ->]. split; lra.
Qed.

(** * The filter *)
Record cf_good (c : cfilter RX) : Prop := {
  cg_q : exists w x y z, unit_quat (cf_q c) w x y z;
  cg_e : rv (cf_interr c) }.

Lemma rv_scale k v : rv v -> forall r, k = x2 r -> rv (v_scale k v).
Proof. intros (x & y & z & ->) r ->. unfold v_scale. cbn [vx vy vz]. rx. do 3 eexists. reflexivity. Qed.
Lemma rv_add a b : rv a -> rv b -> rv (v_add a b).
Proof. intros (x & y & z & ->) (x' & y' & z' & ->). unfold v_add. cbn [vx vy vz]. rx. do 3 eexists. reflexivity. Qed.
Lemma rv_normalized v : rv v -> rv (v_normalized v).
Proof. intros (x & y & z & ->). destruct (v_normalized_real x y z) as (a & b & c & E & _). rewrite E. do 3 eexists. reflexivity. Qed.
Lemma rv_int_error k e err i : k_int k = x2 i -> rv e -> rv err -> rv (int_error k e err).
Proof. intros H (x & y & z & ->) (x' & y' & z' & ->). destruct (@int_error_real k x y z x' y' z' i H) as (a & b & c & ->). do 3 eexists. reflexivity. Qed.
Lemma rv_acc_error q v : (exists w x y z, unit_quat q w x y z) -> rv v -> rv (acc_error q v).
Proof.
  intros (w & x & y & z & -> & H) (a & b & c & ->). destruct (v_normalized_real a b c) as (a' & b' & c' & E & _).
  rewrite (@acc_error_real w x y z a b c H a' b' c' E). do 3 eexists. reflexivity.
Qed.
Lemma unit_rq q : (exists w x y z, unit_quat q w x y z) -> rq q.
Proof. intros (w & x & y & z & H & _). exists w, x, y, z. exact H. Qed.
Lemma update_unit' q v : (exists w x y z, unit_quat q w x y z) -> rv v -> exists w x y z, unit_quat (update_quaternion q v) w x y z.
Proof. intros (w & x & y & z & H) (a & b & c & ->). eapply update_unit. exact H. Qed.

Lemma azimuth_ok fuel q v : (3 <= fuel)%nat -> (exists w x y z, unit_quat q w x y z) -> rv v ->
  exists A, magnetic_azimuth fuel q v = Ok (x2 A) /\ - PI <= A < PI.
Proof.
  intros Hf (w & x & y & z & -> & H) (a & b & c & ->). destruct (v_normalized_real a b c) as (a' & b' & c' & E & _).
  destruct (@magnetic_azimuth_real fuel w x y z a b c Hf H a' b' c' _ E (yaw_real w x y z)) as (A & HA & R & _). eauto.
Qed.

Lemma cf_update_good fuel k c m : (3 <= fuel)%nat -> real_gains k -> cf_good c -> real_sample m ->
  exists c', cf_update fuel k c m = Ok c' /\ cf_good c' /\ cf_cur c' = st_ts m.
Proof.
  intros Hf (ga & gm & gi & Ka & Km & Ki) [Hq He] Hm. assert (Hv : rv (s_val (st_data m))) by exact Hm.
  unfold cf_update.
  destruct (s_type (st_data m)).
  - eexists. split; [reflexivity|]. split; [|reflexivity]. assert (HE : rv (acc_error (cf_q c) (s_val (st_data m)))) by (apply rv_acc_error; auto).
    constructor; cbn.
    + apply update_unit'; [exact Hq|]. eapply rv_scale; [exact HE|exact Ka].
    + eapply rv_int_error; [exact Ki|exact He|exact HE].
  - set (magn := v_normalized (s_val (st_data m))). assert (Hn : rv magn) by (apply rv_normalized; exact Hv).
    set (st := if (cf_gyro c =? -1)%Z then _ else _).
    assert (HS : (exists w x y z, unit_quat (fst st) w x y z) /\ rv (snd st)).
    { subst st. destruct (cf_gyro c =? -1)%Z; [|auto]. destruct (v_mag magn <! cf_eps); [auto|]. cbn [fst snd].
      assert (HE : rv (mag_error (cf_q c) magn)) by (apply mag_error_real; [apply unit_rq; exact Hq|exact Hn]).
      split; [apply update_unit'; [exact Hq|]; eapply rv_scale; [exact HE|exact Km]|].
      eapply rv_int_error; [exact Ki|exact He|exact HE]. }
    destruct st as [q ie]. cbn [fst snd] in HS. destruct HS as [HQ HI].
    destruct (@azimuth_ok fuel q (s_val (st_data m)) Hf HQ Hv) as (A & -> & _). cbn [bind].
    eexists. split; [reflexivity|]. split; [constructor; auto|reflexivity].
  - eexists. split; [reflexivity|]. split; [|reflexivity]. constructor; cbn [cf_q cf_interr]; [|exact He].
    apply update_unit'; [exact Hq|]. rewrite !rx_ofZ, rx_div by lra. apply rv_add; eapply rv_scale; eauto.
  - eexists. split; [reflexivity|]. split; [constructor; auto|reflexivity].
  - eexists. split; [reflexivity|]. split; [constructor; auto|reflexivity].
  - eexists. split; [reflexivity|]. split; [constructor; auto|reflexivity].
Qed.

Lemma cf0_good gm ga : cf_good (cf0 gm ga).
Proof.
  constructor; cbn.
  - exists 1, 0, 0, 0. split; [reflexivity|ring].
  - exists 0, 0, 0. reflexivity.
Qed.

Lemma cf_run_good fuel k ms : (3 <= fuel)%nat -> real_gains k -> Forall real_sample ms ->
  forall c, cf_good c -> exists c', cf_run fuel k c ms = Ok c' /\ cf_good c'.
Proof.
  intros Hf Hk. induction ms as [|m t IH]; intros H c Hc; [exists c; auto|]. cbn [cf_run].
  destruct (@cf_update_good fuel k c m Hf Hk Hc (Forall_inv H)) as (c1 & -> & H1 & _). cbn [bind].
  exact (IH (Forall_inv_tail H) c1 H1).
Qed.

Lemma conf_real s : real_gains (cf_conf s).
Proof. unfold cf_conf. exists (1 / 10), (5 / 100), 0. cbn [k_acc k_mag k_int]. rewrite !rx_lit by lra. auto. Qed.

(** * Accelerometer updates turn the vertical towards the measured one *)
(** homogeneous third row *)
Definition h31 (w x y z : R) := 2 * (x * z - w * y).
Definition h32 (w x y z : R) := 2 * (y * z + w * x).
Definition h33 (w x y z : R) := w * w - x * x - y * y + z * z.

Lemma h3_grow w x y z a b c : let '(W, X, Y, Z) := grow w x y z (2 * a) (2 * b) (2 * c) in
  let g1 := h31 w x y z in let g2 := h32 w x y z in let g3 := h33 w x y z in
  let s := 1 - (a * a + b * b + c * c) in let d := 2 * (a * g1 + b * g2 + c * g3) in
  h31 W X Y Z = s * g1 + d * a + 2 * (g2 * c - g3 * b) /\
  h32 W X Y Z = s * g2 + d * b + 2 * (g3 * a - g1 * c) /\
  h33 W X Y Z = s * g3 + d * c + 2 * (g1 * b - g2 * a).
Proof. unfold grow, h31, h32, h33. cbv zeta. repeat split; field. Qed.

Lemma h3_unit w x y z : h31 w x y z * h31 w x y z + h32 w x y z * h32 w x y z + h33 w x y z * h33 w x y z =
  (w * w + x * x + y * y + z * z) * (w * w + x * x + y * y + z * z).
Proof. unfold h31, h32, h33. ring. Qed.

Lemma h3_scaled W X Y Z n : n <> 0 -> W * W + X * X + Y * Y + Z * Z = n * n ->
  r31 (W / n) (X / n) (Y / n) (Z / n) = h31 W X Y Z / (n * n) /\
  r32 (W / n) (X / n) (Y / n) (Z / n) = h32 W X Y Z / (n * n) /\
  r33 (W / n) (X / n) (Y / n) (Z / n) = h33 W X Y Z / (n * n).
Proof.
  intros Hn H. unfold r31, r32, r33, h31, h32, h33. split; [field; exact Hn|]. split; [field; exact Hn|].
  transitivity ((n * n - 2 * (X * X + Y * Y)) / (n * n)); [field; exact Hn|]. f_equal. lra.
Qed.

(** a . (g turned by a x g) *)
Lemma turn_dot a1 a2 a3 g1 g2 g3 t : a1 * a1 + a2 * a2 + a3 * a3 = 1 -> g1 * g1 + g2 * g2 + g3 * g3 = 1 ->
  let C := a1 * g1 + a2 * g2 + a3 * g3 in
  let h1 := t * (a2 * g3 - a3 * g2) in let h2 := t * (a3 * g1 - a1 * g3) in let h3 := t * (a1 * g2 - a2 * g1) in
  let s := 1 - (h1 * h1 + h2 * h2 + h3 * h3) in let d := 2 * (h1 * g1 + h2 * g2 + h3 * g3) in
  h1 * h1 + h2 * h2 + h3 * h3 = t * t * (1 - C * C) /\
  a1 * (s * g1 + d * h1 + 2 * (g2 * h3 - g3 * h2)) + a2 * (s * g2 + d * h2 + 2 * (g3 * h1 - g1 * h3)) +
  a3 * (s * g3 + d * h3 + 2 * (g1 * h2 - g2 * h1)) = (1 - t * t * (1 - C * C)) * C + 2 * t * (1 - C * C).
Proof.
  intros HA HG. cbv zeta.
  assert (L : forall u, u * (a1 * a1 + a2 * a2 + a3 * a3) * (g1 * g1 + g2 * g2 + g3 * g3) = u) by (intros u; rewrite HA, HG; ring).
  assert (H1 : t * (a2 * g3 - a3 * g2) * (t * (a2 * g3 - a3 * g2)) + t * (a3 * g1 - a1 * g3) * (t * (a3 * g1 - a1 * g3)) +
    t * (a1 * g2 - a2 * g1) * (t * (a1 * g2 - a2 * g1)) = t * t * (1 - (a1 * g1 + a2 * g2 + a3 * g3) * (a1 * g1 + a2 * g2 + a3 * g3))).
  { rewrite <- (L 1). ring. }
  split; [exact H1|]. rewrite H1.
  set (s := 1 - t * t * _). rewrite <- (L 1) at 1. ring.
Qed.

(** the exact effect of one accelerometer sample, for any gain *)
Lemma gravity_any fuel k c m c' w x y z a b d ka :
  s_type (st_data m) = ACCELEROMETER -> real_vec (s_val (st_data m)) a b d -> / IZR (2 ^ 52) < norm3 a b d ->
  unit_quat (cf_q c) w x y z -> k_acc k = x2 ka -> cf_update fuel k c m = Ok c' ->
  exists w' x' y' z', unit_quat (cf_q c') w' x' y' z' /\
  let n := norm3 a b d in let acc := (a / n, b / n, d / n) in
  let C := dot3 acc (vertical w x y z) in let C' := dot3 acc (vertical w' x' y' z') in let t := ka / 2 in
  -1 <= C <= 1 /\ C' = ((1 - t * t * (1 - C * C)) * C + 2 * t * (1 - C * C)) / (1 + t * t * (1 - C * C)).
Proof.
  intros Ht Hv Hn [Hq HU] Hk E. unfold cf_update in E. rewrite Ht in E. injection E as <-. cbn [cf_q].
  destruct (v_normalized_real a b d) as (a' & b' & d' & EV & HV). destruct (HV Hn) as (A1 & A2 & A3 & A4).
  unfold real_vec in Hv. rewrite Hv, Hq. rewrite (@acc_error_real w x y z a b d HU a' b' d' EV). cbv zeta.
  assert (G1 : r31 w x y z = h31 w x y z) by reflexivity. assert (G2 : r32 w x y z = h32 w x y z) by reflexivity.
  assert (G3 : r33 w x y z = h33 w x y z) by (unfold r33, h33; lra).
  unfold vertical, dot3. rewrite <- A1, <- A2, <- A3. rewrite G1, G2, G3.
  pose proof (h3_unit w x y z) as HG. rewrite HU, Rmult_1_l in HG.
  set (g1 := h31 w x y z) in *. set (g2 := h32 w x y z) in *. set (g3 := h33 w x y z) in *.
  unfold v_scale. cbn [vx vy vz]. rewrite Hk, !rx_mul.
  set (t := ka / 2).
  set (h1 := t * (b' * g3 - d' * g2)). set (h2 := t * (d' * g1 - a' * g3)). set (h3 := t * (a' * g2 - b' * g1)).
  replace ((b' * g3 - d' * g2) * ka) with (2 * h1) by (subst h1 t; field).
  replace ((d' * g1 - a' * g3) * ka) with (2 * h2) by (subst h2 t; field).
  replace ((a' * g2 - b' * g1) * ka) with (2 * h3) by (subst h3 t; field).
  pose proof (@update_quaternion_real w x y z (2 * h1) (2 * h2) (2 * h3) HU) as U.
  pose proof (h3_grow w x y z h1 h2 h3) as HH.
  destruct (grow w x y z (2 * h1) (2 * h2) (2 * h3)) as [[[W X] Y] Z]. cbv zeta beta iota in U, HH.
  destruct U as (Hn1 & Hnn & Hs & EU). rewrite EU. set (n := sqrt _) in *.
  fold g1 g2 g3 in HH. destruct HH as (E1 & E2 & E3).
  assert (Hn0 : n <> 0) by lra.
  destruct (@h3_scaled W X Y Z n Hn0 Hs) as (S1 & S2 & S3).
  exists (W / n), (X / n), (Y / n), (Z / n). split.
  { split; [reflexivity|].
    replace (W / n * (W / n) + X / n * (X / n) + Y / n * (Y / n) + Z / n * (Z / n))
      with ((W * W + X * X + Y * Y + Z * Z) / (n * n)) by (field; lra). rewrite Hs. field. lra. }
  rewrite S1, S2, S3, E1, E2, E3.
  destruct (@turn_dot a' b' d' g1 g2 g3 t A4 HG) as [T1 T2]. cbv zeta in T1, T2. fold h1 h2 h3 in T1, T2.
  set (C := a' * g1 + b' * g2 + d' * g3) in *.
  assert (HC : -1 <= C <= 1).
  { assert (0 <= 1 - C * C).
    { replace (1 - C * C) with ((b' * g3 - d' * g2) * (b' * g3 - d' * g2) + (d' * g1 - a' * g3) * (d' * g1 - a' * g3) + (a' * g2 - b' * g1) * (a' * g2 - b' * g1)).
      - pose proof (Rle_0_sqr (b' * g3 - d' * g2)). pose proof (Rle_0_sqr (d' * g1 - a' * g3)). pose proof (Rle_0_sqr (a' * g2 - b' * g1)).
        unfold Rsqr in *. lra.
      - replace 1 with ((a' * a' + b' * b' + d' * d') * (g1 * g1 + g2 * g2 + g3 * g3)) at 1 by (rewrite A4, HG; ring).
        subst C. ring. }
    split; nra. }
  assert (HN : n * n = 1 + t * t * (1 - C * C)) by (rewrite Hnn, <- T1; field).
  match goal with |- _ /\ ?e = _ => replace e with (((1 - t * t * (1 - C * C)) * C + 2 * t * (1 - C * C)) / (n * n)) end.
  2:{ rewrite <- T2. field. exact Hn0. }
  rewrite HN. split; [exact HC|reflexivity].
Qed.

Lemma gravity fuel k c m c' w x y z a b d ka :
  s_type (st_data m) = ACCELEROMETER -> real_vec (s_val (st_data m)) a b d -> / IZR (2 ^ 52) < norm3 a b d ->
  unit_quat (cf_q c) w x y z -> k_acc k = x2 ka -> 0 < ka < 2 -> cf_update fuel k c m = Ok c' ->
  exists w' x' y' z', unit_quat (cf_q c') w' x' y' z' /\
  let n := norm3 a b d in let acc := (a / n, b / n, d / n) in
  let C := dot3 acc (vertical w x y z) in let C' := dot3 acc (vertical w' x' y' z') in
  -1 <= C <= 1 /\ -1 <= C' <= 1 /\ C <= C' /\ (-1 < C < 1 -> C < C') /\
  C' - C = ka * (1 - C * C) * (1 - ka / 2 * C) / (1 + ka * ka / 4 * (1 - C * C)).
Proof.
  intros Ht Hv Hn HU Hk Hka E. destruct (@gravity_any fuel k c m c' w x y z a b d ka Ht Hv Hn HU Hk E) as (w' & x' & y' & z' & U & HC & EC).
  exists w', x', y', z'. split; [exact U|]. cbv zeta in *. rewrite EC. clear EC.
  set (C := dot3 _ (vertical w x y z)) in *. set (t := ka / 2) in *. clearbody C. clear - HC Hka.
  assert (Ht : 0 < t < 1) by (subst t; lra). subst t.
  replace (ka * ka / 4) with (ka / 2 * (ka / 2)) by field. assert (EK : ka = 2 * (ka / 2)) by field.
  set (t := ka / 2) in *. clearbody t. subst ka.
  assert (Q : 0 <= 1 - C * C) by nra. assert (D : 1 <= 1 + t * t * (1 - C * C)) by nra.
  set (q := 1 - C * C) in *.
  assert (EQ : ((1 - t * t * q) * C + 2 * t * q) / (1 + t * t * q) - C = 2 * t * q * (1 - t * C) / (1 + t * t * q)) by (field; lra).
  assert (P1 : 0 < 1 - t * C) by nra.
  assert (P2 : 0 <= 2 * t * q * (1 - t * C) / (1 + t * t * q)).
  { apply Rmult_le_pos; [|left; apply Rinv_0_lt_compat; lra]. apply Rmult_le_pos; [nra|lra]. }
  split; [exact HC|]. split; [|split; [lra|split; [|exact EQ]]].
  - split; [lra|].
    apply (Rmult_le_reg_r (1 + t * t * q)); [lra|]. unfold Rdiv. rewrite Rmult_assoc, Rinv_l by lra. rewrite Rmult_1_r, Rmult_1_l.
    (* (1 - tq t) C + 2 t q <= 1 + t t q  <=>  (1-C) (1 - t(1+C))^2 >= 0 *)
    assert (0 <= (1 - C) * ((1 - t * (1 + C)) * (1 - t * (1 + C)))).
    { apply Rmult_le_pos; [lra|]. pose proof (Rle_0_sqr (1 - t * (1 + C))). unfold Rsqr in *. lra. }
    subst q. nra.
  - intros H. assert (0 < q) by (subst q; nra).
    assert (0 < 2 * t * q * (1 - t * C) / (1 + t * t * q)).
    { apply Rmult_lt_0_compat; [|apply Rinv_0_lt_compat; lra]. apply Rmult_lt_0_compat; [nra|lra]. }
    lra.
Qed.

(** * Gyroscope integration about the vertical *)
Definition yaw_quat (h : R) : quat RX := mkQ (x2 (cos h)) (x2 0) (x2 0) (x2 (sin h)).

Lemma gyro_turn h a : update_quaternion (yaw_quat h) (mkV (x2 0) (x2 0) (x2 a)) = yaw_quat (h + atan (a / 2)).
Proof.
  assert (HU : cos h * cos h + 0 * 0 + 0 * 0 + sin h * sin h = 1) by (pose proof (sin2_cos2 h); unfold Rsqr in *; lra).
  pose proof (@update_quaternion_real (cos h) 0 0 (sin h) 0 0 a HU) as U. unfold grow in U. cbv zeta beta iota in U.
  destruct U as (Hn & Hnn & _ & E). unfold yaw_quat at 1. rewrite E. unfold yaw_quat.
  rewrite cos_plus, sin_plus, cos_atan', sin_atan'.
  replace (1 + a / 2 * (a / 2)) with (1 + (0 * 0 + 0 * 0 + a * a) / 4) by field.
  set (n := sqrt _) in *. f_equal; f_equal; field; lra.
Qed.

Lemma gyro_history fuel k ms : forall c h rate,
  Forall (fun m => s_type (st_data m) = GYROSCOPE /\ real_vec (s_val (st_data m)) 0 0 (rate m)) ms ->
  cf_q c = yaw_quat h -> cf_interr c = (v0 : vec3 RX) ->
  exists c', cf_run fuel k c ms = Ok c' /\ cf_q c' = yaw_quat (h + half_turns (cf_gyro c) ms rate) /\ cf_interr c' = v0.
Proof.
  induction ms as [|m t IH]; intros c h rate H Hq He.
  - exists c. split; [reflexivity|]. cbn [half_turns]. rewrite Rplus_0_r. auto.
  - destruct (Forall_inv H) as [Ht Hv]. cbn [cf_run half_turns]. unfold cf_update. rewrite Ht. cbn [bind].
    match goal with |- context [cf_run fuel k ?cc t] => set (c1 := cc) end.
    destruct (IH c1 (h + atan (rate m * (IZR (st_ts m - (if (cf_gyro c =? -1)%Z then st_ts m else cf_gyro c)) / 1000) / 2)) rate (Forall_inv_tail H)) as (c' & E1 & E2 & E3).
    + subst c1. cbn [cf_q]. rewrite Hq, He. unfold real_vec in Hv. rewrite Hv. unfold v_add, v_scale, v0. cbn [vx vy vz].
      rewrite !rx_ofZ, rx_div by lra. rewrite rx_f0. rx. rewrite <- gyro_turn. f_equal. f_equal; f_equal; ring.
    + exact He.
    + exists c'. split; [exact E1|]. split; [|exact E3]. rewrite E2. cbn [cf_gyro]. subst c1. cbn [cf_gyro]. rewrite Rplus_assoc. reflexivity.
Qed.

Lemma same_angle a b : cos a = cos b -> sin a = sin b -> exists k, a = b + 2 * PI * IZR k.
Proof.
  intros Hc Hs. assert (E : cos (a - b) = 1).
  { rewrite cos_minus, Hc, Hs. pose proof (sin2_cos2 b). unfold Rsqr in *. lra. }
  replace (a - b) with (2 * ((a - b) / 2)) in E by field. rewrite cos_2a_sin in E.
  assert (S0 : sin ((a - b) / 2) = 0) by nra.
  destruct (sin_eq_0_0 _ S0) as [k Hk]. exists k. lra.
Qed.
Lemma yaw_of_yaw_quat h : exists yaw k, q_yaw (yaw_quat h) = x2 yaw /\ - PI < yaw <= PI /\ yaw = 2 * h + 2 * PI * IZR k.
Proof.
  unfold yaw_quat. rewrite yaw_real.
  replace (2 * (cos h * sin h + 0 * 0)) with (sin (2 * h)) by (rewrite sin_2a; ring).
  replace (1 - 2 * (0 * 0 + sin h * sin h)) with (cos (2 * h)) by (rewrite cos_2a_sin; ring).
  pose proof (atan2_polar (sin (2 * h)) (cos (2 * h))) as [P1 P2]. cbv zeta in P1, P2.
  replace (cos (2 * h) * cos (2 * h) + sin (2 * h) * sin (2 * h)) with 1 in P1, P2
    by (pose proof (sin2_cos2 (2 * h)); unfold Rsqr in *; lra).
  rewrite sqrt_1, Rmult_1_l in P1, P2.
  destruct (@same_angle (Ratan2 (sin (2 * h)) (cos (2 * h))) (2 * h)) as [k Hk]; [congruence..|].
  eexists _, k. split; [reflexivity|]. split; [apply atan2_range|exact Hk].
Qed.
