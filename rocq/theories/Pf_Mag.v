(** Magnetometer updates turn the horizontal field towards the y axis. *)
From Coq Require Import Reals Lra Lia Psatz.
From Verif Require Import Lib NumReal LibR Sensors SaCf Spec_Sensors Spec_SaCf Pf_Angle Pf_Cf Pf_SaCf.
Set Implicit Arguments.
Local Open Scope list_scope.
Local Open Scope R_scope.
Local Notation x2 x := (Some x : RX).

(** homogeneous global coordinates *)
Definition k1 (w x y z a b c : R) := (w * w + x * x - y * y - z * z) * a + 2 * (x * y - w * z) * b + 2 * (x * z + w * y) * c.
Definition k2 (w x y z a b c : R) := 2 * (x * y + w * z) * a + (w * w - x * x + y * y - z * z) * b + 2 * (y * z - w * x) * c.
Definition k3 (w x y z a b c : R) := 2 * (x * z - w * y) * a + 2 * (y * z + w * x) * b + (w * w - x * x - y * y + z * z) * c.

Section Unit.
Variables w x y z : R.
Hypothesis HU : w * w + x * x + y * y + z * z = 1.
Lemma g1k a b c : glob_x w x y z a b c = k1 w x y z a b c.
Proof using HU. unfold glob_x, k1, r11, r12, r13. replace (w * w + x * x - y * y - z * z) with (1 - 2 * (y * y + z * z)) by lra. ring. Qed.
Lemma g2k a b c : glob_y w x y z a b c = k2 w x y z a b c.
Proof using HU. unfold glob_y, k2, r21, r22, r23. replace (w * w - x * x + y * y - z * z) with (1 - 2 * (x * x + z * z)) by lra. ring. Qed.
Lemma g3k a b c : glob_z w x y z a b c = k3 w x y z a b c.
Proof using HU. unfold glob_z, k3, r31, r32, r33. replace (w * w - x * x - y * y + z * z) with (1 - 2 * (x * x + y * y)) by lra. ring. Qed.
(** columns are orthonormal *)
Lemma back h v : let s1 := r21 w x y z * h + r31 w x y z * v in let s2 := r22 w x y z * h + r32 w x y z * v in
  let s3 := r23 w x y z * h + r33 w x y z * v in
  k1 w x y z s1 s2 s3 = 0 /\ k2 w x y z s1 s2 s3 = h /\ k3 w x y z s1 s2 s3 = v /\ s1 * s1 + s2 * s2 + s3 * s3 = h * h + v * v.
Proof using HU.
  cbv zeta. assert (E22 : r22 w x y z = w * w - x * x + y * y - z * z) by (unfold r22; lra).
  assert (E33 : r33 w x y z = w * w - x * x - y * y + z * z) by (unfold r33; lra). rewrite E22, E33.
  assert (L : forall u, u * (w * w + x * x + y * y + z * z) * (w * w + x * x + y * y + z * z) = u) by (intros u; rewrite HU; ring).
  unfold k1, k2, k3, r21, r31, r32, r23. split; [ring|]. split.
  { transitivity (h * (w * w + x * x + y * y + z * z) * (w * w + x * x + y * y + z * z)); [ring|apply L]. }
  split.
  { transitivity (v * (w * w + x * x + y * y + z * z) * (w * w + x * x + y * y + z * z)); [ring|apply L]. }
  transitivity ((h * h + v * v) * (w * w + x * x + y * y + z * z) * (w * w + x * x + y * y + z * z)); [ring|apply L].
Qed.
End Unit.

Lemma k_norm w x y z a b c : k1 w x y z a b c * k1 w x y z a b c + k2 w x y z a b c * k2 w x y z a b c + k3 w x y z a b c * k3 w x y z a b c =
  (w * w + x * x + y * y + z * z) * (w * w + x * x + y * y + z * z) * (a * a + b * b + c * c).
Proof. unfold k1, k2, k3. ring. Qed.
Lemma k_lin w x y z a b c d e f s t :
  k1 w x y z (s * a + t * d) (s * b + t * e) (s * c + t * f) = s * k1 w x y z a b c + t * k1 w x y z d e f /\
  k2 w x y z (s * a + t * d) (s * b + t * e) (s * c + t * f) = s * k2 w x y z a b c + t * k2 w x y z d e f /\
  k3 w x y z (s * a + t * d) (s * b + t * e) (s * c + t * f) = s * k3 w x y z a b c + t * k3 w x y z d e f.
Proof. unfold k1, k2, k3. repeat split; ring. Qed.
(** turning the body by the half-angle vector (a,b,c) *)
Lemma k_grow w x y z a b c m1 m2 m3 : let '(W, X, Y, Z) := grow w x y z (2 * a) (2 * b) (2 * c) in
  let s := 1 - (a * a + b * b + c * c) in let d := 2 * (a * m1 + b * m2 + c * m3) in
  let p1 := s * m1 + d * a + 2 * (b * m3 - c * m2) in let p2 := s * m2 + d * b + 2 * (c * m1 - a * m3) in
  let p3 := s * m3 + d * c + 2 * (a * m2 - b * m1) in
  k1 W X Y Z m1 m2 m3 = k1 w x y z p1 p2 p3 /\ k2 W X Y Z m1 m2 m3 = k2 w x y z p1 p2 p3 /\ k3 W X Y Z m1 m2 m3 = k3 w x y z p1 p2 p3.
Proof. unfold grow, k1, k2, k3. cbv zeta. repeat split; field. Qed.
Lemma k_scaled W X Y Z n a b c : n <> 0 ->
  k1 (W / n) (X / n) (Y / n) (Z / n) a b c = k1 W X Y Z a b c / (n * n) /\
  k2 (W / n) (X / n) (Y / n) (Z / n) a b c = k2 W X Y Z a b c / (n * n) /\
  k3 (W / n) (X / n) (Y / n) (Z / n) a b c = k3 W X Y Z a b c / (n * n).
Proof. intros H. unfold k1, k2, k3. repeat split; field; exact H. Qed.

Lemma mag_error_exact w x y z m1 m2 m3 : w * w + x * x + y * y + z * z = 1 ->
  let b1 := glob_x w x y z m1 m2 m3 in let b2 := glob_y w x y z m1 m2 m3 in let b3 := glob_z w x y z m1 m2 m3 in
  let h := sqrt (b1 * b1 + b2 * b2) in
  let s1 := r21 w x y z * h + r31 w x y z * b3 in let s2 := r22 w x y z * h + r32 w x y z * b3 in
  let s3 := r23 w x y z * h + r33 w x y z * b3 in
  mag_error (mkQ (x2 w) (x2 x) (x2 y) (x2 z)) (mkV (x2 m1) (x2 m2) (x2 m3)) =
  mkV (x2 (m2 * s3 - m3 * s2)) (x2 (m3 * s1 - m1 * s3)) (x2 (m1 * s2 - m2 * s1)).
Proof.
  intros H. cbv zeta. rewrite (@g1k w x y z H), (@g2k w x y z H), (@g3k w x y z H). unfold mag_error.
  assert (EG : q_vec (q_mul (q_mul (mkQ (x2 w) (x2 x) (x2 y) (x2 z)) (q_of_vec (mkV (x2 m1) (x2 m2) (x2 m3)))) (q_conj (mkQ (x2 w) (x2 x) (x2 y) (x2 z)))) =
    mkV (x2 (k1 w x y z m1 m2 m3)) (x2 (k2 w x y z m1 m2 m3)) (x2 (k3 w x y z m1 m2 m3))).
  { unfold q_vec, q_mul, q_conj, q_of_vec. cbn [qw qx qy qz vx vy vz]. rx. unfold k1, k2, k3. f_equal; f_equal; ring. }
  rewrite EG. cbn [vx vy vz]. set (b1 := k1 _ _ _ _ _ _ _). set (b2 := k2 _ _ _ _ _ _ _). set (b3 := k3 _ _ _ _ _ _ _).
  rewrite !rx_mul, rx_add, rx_sqrt by (pose proof (Rle_0_sqr b1); pose proof (Rle_0_sqr b2); unfold Rsqr in *; lra).
  replace (b2 * b2 + b1 * b1) with (b1 * b1 + b2 * b2) by ring. set (h := sqrt _).
  assert (E22 : r22 w x y z = w * w - x * x + y * y - z * z) by (unfold r22; lra).
  assert (E33 : r33 w x y z = w * w - x * x - y * y + z * z) by (unfold r33; lra). rewrite E22, E33. unfold r21, r31, r32, r23.
  unfold v_cross, q_vec, q_mul, q_conj, q_of_vec. cbn [qw qx qy qz vx vy vz]. rx. f_equal; f_equal; ring.
Qed.

(** the exact effect of one magnetometer sample before the gyroscope runs *)
Lemma magnet_any fuel (k : cfconf RX) c m c' w x y z a b d km :
  s_type (st_data m) = MAGNETOMETER -> cf_gyro c = (-1)%Z -> real_vec (s_val (st_data m)) a b d -> / IZR (2 ^ 52) < norm3 a b d ->
  unit_quat (cf_q c) w x y z -> k_mag k = x2 km -> cf_update fuel k c m = Ok c' ->
  cf_gyro c' = (-1)%Z /\
  exists w' x' y' z', unit_quat (cf_q c') w' x' y' z' /\
  let '(m1, m2, m3) := direction a b d in
  let b1 := glob_x w x y z m1 m2 m3 in let b2 := glob_y w x y z m1 m2 m3 in let b3 := glob_z w x y z m1 m2 m3 in
  let h := sqrt (b1 * b1 + b2 * b2) in let t := km / 2 in let D := b2 * h + b3 * b3 in
  let N := 1 + t * t * (1 - D * D) in let al := (1 - t * t * (1 - D * D) - 2 * t * D) / N in let be := 2 * t / N in
  h * h + b3 * b3 = 1 /\ -1 <= D <= 1 /\
  glob_x w' x' y' z' m1 m2 m3 = al * b1 /\ glob_y w' x' y' z' m1 m2 m3 = al * b2 + be * h /\
  glob_z w' x' y' z' m1 m2 m3 = (al + be) * b3.
Proof.
  intros Ht Hg Hv Hn [Hq HU] Hk E. unfold cf_update in E. rewrite Ht, Hg in E. change (-1 =? -1)%Z with true in E. cbv iota in E.
  unfold real_vec in Hv. rewrite Hv, Hq in E.
  destruct (v_normalized_real a b d) as (m1 & m2 & m3 & EV & HV). destruct (HV Hn) as (A1 & A2 & A3 & A4).
  rewrite EV in E. assert (EM : (v_mag (mkV (x2 m1) (x2 m2) (x2 m3)) <! cf_eps) = false).
  { rewrite v_mag_real'. unfold norm3. rewrite A4, sqrt_1. unfold cf_eps. rewrite rx_lit, rx_ltb by lra. apply Rltb_false. lra. }
  rewrite EM in E. inv_bind E. injection Hb as <-. cbn [cf_gyro cf_q]. split; [reflexivity|]. clear Ha.
  unfold direction. rewrite <- A1, <- A2, <- A3. rewrite (@mag_error_exact w x y z m1 m2 m3 HU). cbv zeta.
  set (b1 := glob_x _ _ _ _ _ _ _). set (b2 := glob_y _ _ _ _ _ _ _). set (b3 := glob_z _ _ _ _ _ _ _).
  assert (HB : b1 * b1 + b2 * b2 + b3 * b3 = 1).
  { subst b1 b2 b3. rewrite (@g1k w x y z HU), (@g2k w x y z HU), (@g3k w x y z HU), k_norm, HU, A4. ring. }
  assert (P12 : 0 <= b1 * b1 + b2 * b2) by (pose proof (Rle_0_sqr b1); pose proof (Rle_0_sqr b2); unfold Rsqr in *; lra).
  set (h := sqrt _). assert (Hh : h * h = b1 * b1 + b2 * b2) by (apply sqrt_sqrt; exact P12).
  destruct (@back w x y z HU h b3) as (K1 & K2 & K3 & K4). cbv zeta in *.
  set (s1 := r21 w x y z * h + r31 w x y z * b3) in *. set (s2 := r22 w x y z * h + r32 w x y z * b3) in *. set (s3 := r23 w x y z * h + r33 w x y z * b3) in *.
  assert (HS : s1 * s1 + s2 * s2 + s3 * s3 = 1) by lra.
  assert (HD : m1 * s1 + m2 * s2 + m3 * s3 = b2 * h + b3 * b3) by (subst s1 s2 s3 b2 b3; unfold glob_y, glob_z; ring).
  set (D := b2 * h + b3 * b3) in *. unfold v_scale. cbn [vx vy vz]. rewrite Hk, !rx_mul. set (t := km / 2).
  set (h1 := t * (m2 * s3 - m3 * s2)). set (h2 := t * (m3 * s1 - m1 * s3)). set (h3 := t * (m1 * s2 - m2 * s1)).
  replace ((m2 * s3 - m3 * s2) * km) with (2 * h1) by (subst h1 t; field).
  replace ((m3 * s1 - m1 * s3) * km) with (2 * h2) by (subst h2 t; field).
  replace ((m1 * s2 - m2 * s1) * km) with (2 * h3) by (subst h3 t; field).
  pose proof (@update_quaternion_real w x y z (2 * h1) (2 * h2) (2 * h3) HU) as U.
  pose proof (@k_grow w x y z h1 h2 h3 m1 m2 m3) as HH.
  destruct (grow w x y z (2 * h1) (2 * h2) (2 * h3)) as [[[W X] Y] Z]. cbv zeta beta iota in U, HH.
  destruct U as (Hn1 & Hnn & Hs & EU). rewrite EU. set (n := sqrt (1 + _)) in *. assert (Hn0 : n <> 0) by lra.
  assert (L : forall u, u * (m1 * m1 + m2 * m2 + m3 * m3) * (s1 * s1 + s2 * s2 + s3 * s3) = u) by (intros u; rewrite A4, HS; ring).
  assert (Q1 : h1 * h1 + h2 * h2 + h3 * h3 = t * t * (1 - D * D)).
  { rewrite <- (L 1), <- HD. subst h1 h2 h3. ring. }
  assert (Q2 : h1 * m1 + h2 * m2 + h3 * m3 = 0) by (subst h1 h2 h3; ring).
  rewrite Q1, Q2 in HH. set (q := 1 - D * D) in *.
  assert (HC : 0 <= q).
  { subst q. replace (1 - D * D) with ((m2 * s3 - m3 * s2) * (m2 * s3 - m3 * s2) + (m3 * s1 - m1 * s3) * (m3 * s1 - m1 * s3) + (m1 * s2 - m2 * s1) * (m1 * s2 - m2 * s1)).
    - pose proof (Rle_0_sqr (m2 * s3 - m3 * s2)). pose proof (Rle_0_sqr (m3 * s1 - m1 * s3)). pose proof (Rle_0_sqr (m1 * s2 - m2 * s1)). unfold Rsqr in *. lra.
    - rewrite <- (L 1), <- HD. ring. }
  assert (Hnq : n * n = 1 + t * t * q) by (rewrite Hnn, <- Q1; field).
  (* h x m = t (s - D m) *)
  assert (V1 : h2 * m3 - h3 * m2 = t * (s1 - D * m1)).
  { transitivity (t * (s1 * (m1 * m1 + m2 * m2 + m3 * m3) - (m1 * s1 + m2 * s2 + m3 * s3) * m1)); [subst h2 h3; ring|rewrite A4, HD; ring]. }
  assert (V2 : h3 * m1 - h1 * m3 = t * (s2 - D * m2)).
  { transitivity (t * (s2 * (m1 * m1 + m2 * m2 + m3 * m3) - (m1 * s1 + m2 * s2 + m3 * s3) * m2)); [subst h1 h3; ring|rewrite A4, HD; ring]. }
  assert (V3 : h1 * m2 - h2 * m1 = t * (s3 - D * m3)).
  { transitivity (t * (s3 * (m1 * m1 + m2 * m2 + m3 * m3) - (m1 * s1 + m2 * s2 + m3 * s3) * m3)); [subst h1 h2; ring|rewrite A4, HD; ring]. }
  rewrite V1, V2, V3 in HH. set (s := 1 - t * t * q - 2 * t * D).
  replace ((1 - t * t * q) * m1 + 2 * 0 * h1 + 2 * (t * (s1 - D * m1))) with (s * m1 + 2 * t * s1) in HH by (subst s; ring).
  replace ((1 - t * t * q) * m2 + 2 * 0 * h2 + 2 * (t * (s2 - D * m2))) with (s * m2 + 2 * t * s2) in HH by (subst s; ring).
  replace ((1 - t * t * q) * m3 + 2 * 0 * h3 + 2 * (t * (s3 - D * m3))) with (s * m3 + 2 * t * s3) in HH by (subst s; ring).
  destruct (@k_lin w x y z m1 m2 m3 s1 s2 s3 s (2 * t)) as (L1 & L2 & L3). rewrite L1, L2, L3, K1, K2, K3 in HH.
  rewrite <- (@g1k w x y z HU), <- (@g2k w x y z HU), <- (@g3k w x y z HU) in HH. fold b1 b2 b3 in HH. destruct HH as (E1 & E2 & E3).
  assert (U' : W / n * (W / n) + X / n * (X / n) + Y / n * (Y / n) + Z / n * (Z / n) = 1).
  { replace (W / n * (W / n) + X / n * (X / n) + Y / n * (Y / n) + Z / n * (Z / n)) with ((W * W + X * X + Y * Y + Z * Z) / (n * n)) by (field; lra).
    rewrite Hs. field. lra. }
  exists (W / n), (X / n), (Y / n), (Z / n). split; [split; [reflexivity|exact U']|].
  rewrite (@g1k _ _ _ _ U'), (@g2k _ _ _ _ U'), (@g3k _ _ _ _ U').
  destruct (@k_scaled W X Y Z n m1 m2 m3 Hn0) as (S1 & S2 & S3). rewrite S1, S2, S3, E1, E2, E3. rewrite <- Hnq.
  split; [lra|]. split; [subst q; split; nra|]. split; [field; exact Hn0|]. split; [field; exact Hn0|]. field. exact Hn0.
Qed.

Lemma north_ratio t D h b1 b2 : 0 < t <= 1 / 4 -> -1 <= D <= 1 -> h * h = b1 * b1 + b2 * b2 -> 0 <= h -> b1 <> 0 ->
  let N := 1 + t * t * (1 - D * D) in let al := (1 - t * t * (1 - D * D) - 2 * t * D) / N in let be := 2 * t / N in
  0 < al /\ 0 < be /\ b2 / Rabs b1 + 2 * t / (1 + 2 * t) <= (al * b2 + be * h) / Rabs (al * b1).
Proof.
  intros Ht HD Hh H0 Hb. cbv zeta. set (q := 1 - D * D). assert (Hq : 0 <= q <= 1) by (subst q; nra).
  set (N := 1 + t * t * q). assert (HN : 1 <= N) by (subst N; nra). set (a := 1 - t * t * q - 2 * t * D).
  assert (Ha : 0 < a <= 1 + 2 * t) by (subst a; split; nra).
  assert (Hal : 0 < a / N) by (apply Rmult_lt_0_compat; [lra|apply Rinv_0_lt_compat; lra]).
  assert (Hbe : 0 < 2 * t / N) by (apply Rmult_lt_0_compat; [lra|apply Rinv_0_lt_compat; lra]).
  split; [exact Hal|]. split; [exact Hbe|]. pose proof (Rabs_pos_lt b1 Hb) as Pb.
  rewrite Rabs_mult, (Rabs_right (a / N)) by lra.
  replace ((a / N * b2 + 2 * t / N * h) / (a / N * Rabs b1)) with (b2 / Rabs b1 + 2 * t * h / (a * Rabs b1)) by (field; lra).
  apply Rplus_le_compat_l.
  assert (HL : Rabs b1 <= h).
  { apply Rsqr_incr_0_var; [|exact H0]. unfold Rsqr. rewrite <- Rabs_mult, Hh, Rabs_right; [|nra]. nra. }
  apply (Rmult_le_reg_r (1 + 2 * t)); [lra|]. unfold Rdiv. rewrite Rmult_assoc, Rinv_l, Rmult_1_r by lra.
  apply (Rmult_le_reg_r (a * Rabs b1)); [nra|]. replace (2 * t * h * / (a * Rabs b1) * (1 + 2 * t) * (a * Rabs b1)) with (2 * t * h * (1 + 2 * t)) by (field; lra).
  assert (a * Rabs b1 <= (1 + 2 * t) * h) by (apply Rmult_le_compat; lra). nra.
Qed.

Lemma north_run fuel (k : cfconf RX) m1 m2 m3 km ms : (3 <= fuel)%nat -> real_gains k -> k_mag k = x2 km -> 0 < km <= 1 / 2 ->
  Forall (fun m => s_type (st_data m) = MAGNETOMETER /\ points_to (m1, m2, m3) (s_val (st_data m))) ms -> forall (c : cfilter RX) w x y z,
  unit_quat (cf_q c) w x y z -> (exists e1 e2 e3, real_vec (cf_interr c) e1 e2 e3) -> cf_gyro c = (-1)%Z -> glob_x w x y z m1 m2 m3 <> 0 ->
  exists c' w' x' y' z', cf_run fuel k c ms = Ok c' /\ unit_quat (cf_q c') w' x' y' z' /\ glob_x w' x' y' z' m1 m2 m3 <> 0 /\
    glob_y w x y z m1 m2 m3 / Rabs (glob_x w x y z m1 m2 m3) + INR (List.length ms) * (km / (1 + km)) <=
    glob_y w' x' y' z' m1 m2 m3 / Rabs (glob_x w' x' y' z' m1 m2 m3).
Proof.
  intros Hf Hg Hk Km. induction ms as [|m t IH]; intros HR c w x y z HU HI Hgy Hb.
  - exists c, w, x, y, z. split; [reflexivity|]. split; [exact HU|]. split; [exact Hb|]. cbn. lra.
  - destruct (Forall_inv HR) as (Ht & a & b & d & Hv & Hn & Hd). cbn [cf_run].
    destruct (@cf_update_good fuel k c m Hf Hg) as (c1 & E1 & G1 & _); [split; [do 4 eexists; exact HU|exact HI]|do 3 eexists; exact Hv|].
    rewrite E1. cbn [bind]. destruct (@magnet_any fuel k c m c1 w x y z a b d km Ht Hgy Hv Hn HU Hk E1) as (Hgy1 & w1 & x1 & y1 & z1 & U1 & M).
    rewrite Hd in M. cbv zeta in M. destruct M as (HB & HD & M1 & M2 & _). clear Hd.
    set (b1 := glob_x w x y z m1 m2 m3) in *. set (b2 := glob_y w x y z m1 m2 m3) in *. set (b3 := glob_z w x y z m1 m2 m3) in *.
    set (h := sqrt (b1 * b1 + b2 * b2)) in *.
    assert (Hh : h * h = b1 * b1 + b2 * b2).
    { apply sqrt_sqrt. pose proof (Rle_0_sqr b1). pose proof (Rle_0_sqr b2). unfold Rsqr in *. lra. }
    destruct (@north_ratio (km / 2) (b2 * h + b3 * b3) h b1 b2 ltac:(lra) HD Hh (sqrt_pos _) Hb) as (Ra & Rb & Rc). cbv zeta in Ra, Rb, Rc.
    rewrite <- M1, <- M2 in Rc. replace (2 * (km / 2)) with km in Rc by field.
    destruct (IH (Forall_inv_tail HR) c1 w1 x1 y1 z1 U1 (cg_e G1) Hgy1) as (c' & w' & x' & y' & z' & R1 & R2 & R3 & R4).
    { rewrite M1. apply Rmult_integral_contrapositive_currified; [lra|exact Hb]. }
    exists c', w', x', y', z'. split; [exact R1|]. split; [exact R2|]. split; [exact R3|].
    change (List.length (m :: t)) with (S (List.length t)). rewrite S_INR. lra.
Qed.
