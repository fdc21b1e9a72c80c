(** Proofs about the tilt error of a moving device (C101). *)
From Coq Require Import Reals Lra Lia Psatz.
From Verif Require Import Lib NumReal LibR Sensors SaCf Spec_Sensors Spec_SaCf Spec_Tilt Spec_Settle Pf_Angle Pf_Cf Pf_SaCf Pf_Tilt.
Set Implicit Arguments.
Local Open Scope list_scope.
Local Open Scope R_scope.
Local Notation x2 x := (Some x : RX).

(** * Distances *)
Lemma norm3_sq a b c : norm3 a b c * norm3 a b c = a * a + b * b + c * c.
Proof. apply sqrt_sqrt. pose proof (Rle_0_sqr a). pose proof (Rle_0_sqr b). pose proof (Rle_0_sqr c). unfold Rsqr in *. lra. Qed.
Lemma sq_le x y : 0 <= y -> x * x <= y * y -> x <= y.
Proof. intros H1 H2. destruct (Rle_or_lt x y) as [L|L]; [exact L|nra]. Qed.
Lemma norm3_plus a b c p q r : norm3 (a + p) (b + q) (c + r) <= norm3 a b c + norm3 p q r.
Proof.
  pose proof (norm3_pos a b c) as P1. pose proof (norm3_pos p q r) as P2.
  apply sq_le; [lra|]. rewrite norm3_sq.
  pose proof (norm3_sq a b c) as E1. pose proof (norm3_sq p q r) as E2.
  set (m := norm3 a b c) in *. set (n := norm3 p q r) in *. clearbody m n.
  assert (CS : a * p + b * q + c * r <= m * n).
  { apply sq_le; [nra|]. replace (m * n * (m * n)) with (m * m * (n * n)) by ring. rewrite E1, E2.
    pose proof (Rle_0_sqr (a * q - b * p)). pose proof (Rle_0_sqr (a * r - c * p)). pose proof (Rle_0_sqr (b * r - c * q)). unfold Rsqr in *. nra. }
  nra.
Qed.
Lemma dist3_pos u v : 0 <= dist3 u v.
Proof. destruct u as [[a b] c], v as [[p q] r]. apply norm3_pos. Qed.
Lemma dist3_triangle u v w : dist3 u w <= dist3 u v + dist3 v w.
Proof.
  destruct u as [[a b] c], v as [[p q] r], w as [[x y] z]. unfold dist3.
  pose proof (norm3_plus (a - p) (b - q) (c - r) (p - x) (q - y) (r - z)) as H.
  replace (a - p + (p - x)) with (a - x) in H by ring. replace (b - q + (q - y)) with (b - y) in H by ring.
  replace (c - r + (r - z)) with (c - z) in H by ring. exact H.
Qed.
Lemma dist3_sym u v : dist3 u v = dist3 v u.
Proof. destruct u as [[a b] c], v as [[p q] r]. unfold dist3, norm3. f_equal. ring. Qed.
Lemma dist3_dot u v : unit3 u -> unit3 v -> dist3 u v * dist3 u v = 2 - 2 * dot3 u v.
Proof.
  destruct u as [[a b] c], v as [[p q] r]. unfold unit3, dist3, dot3. intros H1 H2. rewrite norm3_sq. nra.
Qed.

(** * Turning *)
Lemma seen_dist r v v' g g' : seen_after r v v' -> seen_after r g g' -> dist3 v' g' = dist3 v g.
Proof.
  destruct r as [[r1 r2] r3], v as [[v1 v2] v3], v' as [[w1 w2] w3], g as [[g1 g2] g3], g' as [[k1 k2] k3].
  unfold seen_after, cross3, dist3, norm3. intros H1 H2. injection H1 as A1 A2 A3. injection H2 as B1 B2 B3. f_equal.
  set (d1 := v1 - g1). set (d2 := v2 - g2). set (d3 := v3 - g3). set (e1 := w1 - k1). set (e2 := w2 - k2). set (e3 := w3 - k3).
  assert (C1 : e1 - d1 = (d2 + e2) / 2 * r3 - (d3 + e3) / 2 * r2) by (subst d1 d2 d3 e1 e2 e3; lra).
  assert (C2 : e2 - d2 = (d3 + e3) / 2 * r1 - (d1 + e1) / 2 * r3) by (subst d1 d2 d3 e1 e2 e3; lra).
  assert (C3 : e3 - d3 = (d1 + e1) / 2 * r2 - (d2 + e2) / 2 * r1) by (subst d1 d2 d3 e1 e2 e3; lra).
  clearbody d1 d2 d3 e1 e2 e3.
  assert (E : (e1 - d1) * (d1 + e1) + (e2 - d2) * (d2 + e2) + (e3 - d3) * (d3 + e3) = 0) by (rewrite C1, C2, C3; field). lra.
Qed.
Lemma gyro_seen q w x y z a b d : unit_quat q w x y z ->
  exists w' x' y' z', unit_quat (update_quaternion q (mkV (x2 a) (x2 b) (x2 d))) w' x' y' z' /\
    seen_after (a, b, d) (vertical w x y z) (vertical w' x' y' z').
Proof.
  intros HU. replace a with (2 * (a / 2)) by field. replace b with (2 * (b / 2)) by field. replace d with (2 * (d / 2)) by field.
  set (h1 := a / 2). set (h2 := b / 2). set (h3 := d / 2).
  destruct (@push q w x y z h1 h2 h3 HU) as (w' & x' & y' & z' & U & EV). exists w', x', y', z'. split; [exact U|].
  destruct (vertical w x y z) as [[g1 g2] g3]. cbv zeta beta iota in EV. rewrite EV. unfold seen_after, cross3.
  assert (0 < 1 + (h1 * h1 + h2 * h2 + h3 * h3)).
  { pose proof (Rle_0_sqr h1). pose proof (Rle_0_sqr h2). pose proof (Rle_0_sqr h3). unfold Rsqr in *. lra. }
  f_equal; [f_equal|]; field; lra.
Qed.

(** * The balance *)
Section Balance.
Context (k a b : R) (Hk : 0 < k < 1) (Ha : 0 <= a) (Hb : 0 <= b).
Definition corrected (s : R) : R := sqrt ((1 - k) * (s * s) + k * (a * a)).
Definition balance : R := (b + sqrt (b * b + k * (k * (a * a) - b * b))) / k.

Lemma corrected_sq s : corrected s * corrected s = (1 - k) * (s * s) + k * (a * a).
Proof. apply sqrt_sqrt. pose proof (Rle_0_sqr s). pose proof (Rle_0_sqr a). unfold Rsqr in *. nra. Qed.
Lemma corrected_pos s : 0 <= corrected s.
Proof. apply sqrt_pos. Qed.
Lemma balance_arg : 0 <= b * b + k * (k * (a * a) - b * b).
Proof. pose proof (Rle_0_sqr b). pose proof (Rle_0_sqr (k * a)). unfold Rsqr in *. nra. Qed.
Lemma balance_low : a + b <= balance.
Proof.
  unfold balance. apply (Rmult_le_reg_r k); [lra|]. unfold Rdiv. rewrite Rmult_assoc, Rinv_l, Rmult_1_r by lra.
  assert (k * a <= sqrt (b * b + k * (k * (a * a) - b * b))); [|nra].
  apply sq_le; [apply sqrt_pos|]. rewrite (sqrt_sqrt _ balance_arg). pose proof (Rle_0_sqr b). unfold Rsqr in *. nra.
Qed.
Lemma balance_fix : corrected balance = balance - b.
Proof.
  pose proof balance_low as L. unfold corrected. rewrite <- (sqrt_square (balance - b)) by lra. f_equal.
  assert (E : (k * balance - b) * (k * balance - b) = b * b + k * (k * (a * a) - b * b)).
  { replace (k * balance - b) with (sqrt (b * b + k * (k * (a * a) - b * b))) by (unfold balance; field; lra). apply sqrt_sqrt, balance_arg. }
  apply (Rmult_eq_reg_l k); [|lra]. nra.
Qed.
(** errors above the balance shrink by the factor sqrt (1 - k) *)
Lemma corrected_contracts s : balance <= s -> corrected s + b <= balance + sqrt (1 - k) * (s - balance).
Proof.
  intros H. pose proof balance_low as L. pose proof balance_fix as Fx. pose proof (corrected_sq s) as E1. pose proof (corrected_sq balance) as E2.
  pose proof (corrected_pos s) as P1. pose proof (corrected_pos balance) as P2.
  pose proof (sqrt_pos (1 - k)) as P3. pose proof (sqrt_sqrt (1 - k) ltac:(lra)) as E3. set (rho := sqrt (1 - k)) in *.
  assert (corrected s <= corrected balance + rho * (s - balance)); [|lra].
  apply sq_le; [nra|]. rewrite E1.
  assert (G : rho * balance <= corrected balance).
  { apply sq_le; [exact P2|]. replace (rho * balance * (rho * balance)) with (rho * rho * (balance * balance)) by ring. rewrite E2, E3.
    pose proof (Rle_0_sqr a). unfold Rsqr in *. nra. }
  replace ((corrected balance + rho * (s - balance)) * (corrected balance + rho * (s - balance)))
    with (corrected balance * corrected balance + 2 * (rho * (s - balance)) * corrected balance + rho * rho * ((s - balance) * (s - balance))) by ring.
  rewrite E2, E3. assert (0 <= rho * (s - balance)) by nra.
  assert (2 * (rho * (s - balance)) * (rho * balance) <= 2 * (rho * (s - balance)) * corrected balance) by nra.
  replace (2 * (rho * (s - balance)) * (rho * balance)) with (2 * (rho * rho) * ((s - balance) * balance)) in H1 by ring.
  rewrite E3 in H1. nra.
Qed.
Lemma corrected_le s : a <= s -> corrected s <= s.
Proof. intros H. apply sq_le; [lra|]. rewrite corrected_sq. assert (a * a <= s * s) by nra. nra. Qed.
(** the bound after [n] gyroscope samples *)
Definition level_of (d0 : R) (n : nat) : R := balance + sqrt (1 - k) ^ n * (d0 - balance).
Lemma rho_range : 0 <= sqrt (1 - k) < 1.
Proof. split; [apply sqrt_pos|]. apply Rlt_le_trans with (sqrt 1); [apply sqrt_lt_1; lra|rewrite sqrt_1; lra]. Qed.
Lemma level_range d0 n : balance <= d0 -> balance <= level_of d0 n <= d0.
Proof.
  intros H. unfold level_of. pose proof rho_range as R1.
  assert (0 <= sqrt (1 - k) ^ n <= 1).
  { split; [apply pow_le; lra|]. apply Rle_trans with (1 ^ n); [apply pow_incr; lra|rewrite pow1; lra]. }
  split; nra.
Qed.
Lemma level_step d0 n : balance <= d0 -> corrected (level_of d0 n) + b <= level_of d0 (S n).
Proof.
  intros H. eapply Rle_trans; [apply corrected_contracts, level_range, H|]. unfold level_of. cbn [pow]. lra.
Qed.
End Balance.

Lemma taken_range ka : 0 < ka <= 1 -> 0 < taken ka < 1.
Proof.
  intros H. unfold taken. assert (P : 0 < 1 + ka * ka / 4) by nra. split.
  - apply Rdiv_lt_0_compat; lra.
  - apply (Rmult_lt_reg_r (1 + ka * ka / 4)); [exact P|]. unfold Rdiv at 1. rewrite Rmult_assoc, Rinv_l by lra. nra.
Qed.
Lemma residual_balance ka a b : residual ka a b = balance (taken ka) a b.
Proof. reflexivity. Qed.

(** * One accelerometer sample *)
Lemma acc_step q w x y z p1 q1 r1 ka u a D : 0 < ka <= 1 -> 0 <= a <= D -> D * D <= 2 ->
  unit3 u -> unit_quat q w x y z -> / IZR (2 ^ 52) < norm3 p1 q1 r1 -> dist3 u (direction p1 q1 r1) <= a -> dist3 u (vertical w x y z) <= D ->
  exists w' x' y' z', unit_quat (update_quaternion q (v_scale (x2 ka) (acc_error q (mkV (x2 p1) (x2 q1) (x2 r1))))) w' x' y' z' /\
    dist3 u (vertical w' x' y' z') <= corrected (taken ka) a D.
Proof.
  intros Hka Ha HD Hu HU Hn HA H0. destruct (@acc_mix q w x y z p1 q1 r1 ka HU Hn) as (w' & x' & y' & z' & U & EV). cbv zeta in EV.
  exists w', x', y', z'. split; [exact U|]. pose proof (taken_range Hka) as Hk.
  pose proof (direction_unit p1 q1 r1 Hn) as Ud. pose proof (@vertical_unit w x y z (proj2 HU)) as Uv. pose proof (@vertical_unit w' x' y' z' (proj2 U)) as Uw.
  pose proof (dist3_dot Hu Ud) as E1. pose proof (dist3_dot Hu Uv) as E2. pose proof (dist3_dot Hu Uw) as E3.
  pose proof (dist3_pos u (direction p1 q1 r1)) as P1. pose proof (dist3_pos u (vertical w x y z)) as P2.
  assert (K1 : 1 - a * a / 2 <= dot3 u (direction p1 q1 r1)) by nra. assert (K2 : 1 - D * D / 2 <= dot3 u (vertical w x y z)) by nra.
  assert (A2 : 0 <= a * a <= D * D) by nra.
  set (cE := 1 - D * D / 2). set (cA := 1 - a * a / 2). set (cG := cE + taken ka * (cA - cE)).
  assert (RE : 0 <= cE <= 1) by (subst cE; lra). assert (RA : 0 <= cA <= 1) by (subst cA; lra).
  assert (RG : 0 <= cG <= 1) by (subst cG cE cA; nra).
  pose proof (@corrects_noisy ka u (acos cA) (acos cE) (acos cG) Hka) as C. rewrite !cos_acos in C by lra.
  specialize (C ltac:(lra) ltac:(subst cE cA; lra) ltac:(subst cG; unfold taken; lra)).
  specialize (C (vertical w x y z) (direction p1 q1 r1) Uv Ud). rewrite !cos_acos in C by lra. specialize (C K1 K2). cbv zeta in C.
  rewrite <- EV in C. apply sq_le; [apply corrected_pos|]. rewrite E3, corrected_sq by lra. subst cG cE cA. lra.
Qed.

(** * Histories *)
Lemma moving_run fuel (k : cfconf RX) ka ki a b d0 ms : (3 <= fuel)%nat -> k_acc k = x2 ka -> 0 < ka <= 1 -> k_int k = x2 ki -> ki <= 1 / 100000000 ->
  0 <= a -> 0 <= b -> residual ka a b <= d0 -> d0 * d0 <= 2 ->
  forall (c : cfilter RX) u n w x y z fresh, unit_quat (cf_q c) w x y z -> cf_interr c = v0 -> unit3 u ->
  moving a b u (cf_gyro c) fresh ms ->
  dist3 u (vertical w x y z) <= level_of (taken ka) a b d0 n ->
  (fresh = true -> dist3 u (vertical w x y z) <= corrected (taken ka) a (level_of (taken ka) a b d0 n)) ->
  exists c' w' x' y' z', cf_run fuel k c (map snd ms) = Ok c' /\ unit_quat (cf_q c') w' x' y' z' /\
    cf_interr c' = v0 /\ cf_gyro c' = end_time (cf_gyro c) ms /\
    dist3 (true_end u ms) (vertical w' x' y' z') <= level_of (taken ka) a b d0 (n + gyro_steps (cf_gyro c) ms).
Proof.
  intros Hf Hka Ka Hki Ki Ha Hb Hd Hd2. pose proof (taken_range Ka) as Hk. rewrite residual_balance in Hd.
  assert (BL : a + b <= balance (taken ka) a b) by (apply balance_low; assumption).
  assert (LR : forall n, balance (taken ka) a b <= level_of (taken ka) a b d0 n <= d0) by (intros n; apply level_range; assumption).
  induction ms as [|[u' m] t IH]; intros c u n w x y z fresh HU HI Hu HS H0 H1.
  { exists c, w, x, y, z. cbn [map cf_run true_end gyro_steps end_time]. rewrite Nat.add_0_r. auto 6. }
  cbn [moving] in HS. cbn [map snd cf_run true_end gyro_steps end_time].
  assert (Other : forall c1, cf_update fuel k c m = Ok c1 -> cf_q c1 = cf_q c -> cf_interr c1 = v0 -> cf_gyro c1 = cf_gyro c ->
    moving a b u (cf_gyro c) fresh t ->
    exists c' w' x' y' z', (c2 <- cf_update fuel k c m ;; cf_run fuel k c2 (map snd t)) = Ok c' /\ unit_quat (cf_q c') w' x' y' z' /\
      cf_interr c' = v0 /\ cf_gyro c' = end_time (cf_gyro c) t /\
      dist3 (true_end u t) (vertical w' x' y' z') <= level_of (taken ka) a b d0 (n + gyro_steps (cf_gyro c) t)).
  { intros c1 E1 Eq Ei Eg Es. rewrite E1. cbn [bind]. rewrite <- Eq in HU. rewrite <- Eg in Es |- *. exact (IH c1 u n w x y z fresh HU Ei Hu Es H0 H1). }
  destruct (s_type (st_data m)) eqn:Et.
  - (* accelerometer *)
    clear Other. destruct HS as [(p & q & r & Hv & Hn & HA) HS]. unfold cf_update. rewrite Et. cbn [bind].
    match goal with |- context [cf_run fuel k ?cc (map snd t)] => set (c1 := cc) end.
    pose proof (LR n) as Ln. pose proof (dist3_pos u (vertical w x y z)) as P0.
    destruct (@acc_step (cf_q c) w x y z p q r ka u a (level_of (taken ka) a b d0 n) Ka) as (w' & x' & y' & z' & U & EV); auto; [lra|nra|].
    apply (IH c1 u n w' x' y' z' true); auto.
    + subst c1. cbn [cf_q]. unfold real_vec in Hv. rewrite Hv, Hka. exact U.
    + subst c1. cbn [cf_interr]. rewrite HI. eapply int_error_none; eauto.
    + eapply Rle_trans; [exact EV|]. apply corrected_le; auto. lra.
  - (* magnetometer *)
    destruct HS as (Hm & Hg & HS).
    destruct (@azimuth_ok fuel (cf_q c) (s_val (st_data m)) Hf) as (Az & EA & _); [do 4 eexists; exact HU|exact Hm|].
    eapply Other; [unfold cf_update; rewrite Et, (proj2 (Z.eqb_neq _ _) Hg), EA; cbn [bind]; reflexivity|reflexivity|exact HI|reflexivity|exact HS].
  - (* gyroscope *)
    clear Other. destruct HS as ((p & q & r & v & Hv & Hs & Hu' & HB) & Hfr & HS).
    unfold cf_update. rewrite Et. cbn [bind].
    match goal with |- context [cf_run fuel k ?cc (map snd t)] => set (c1 := cc) end.
    set (dt := seconds (cf_gyro c) m) in *.
    destruct (@gyro_seen (cf_q c) w x y z (p * dt) (q * dt) (r * dt) HU) as (w' & x' & y' & z' & U & EV).
    assert (EQ : cf_q c1 = update_quaternion (cf_q c) (mkV (x2 (p * dt)) (x2 (q * dt)) (x2 (r * dt)))).
    { subst c1. cbn [cf_q]. unfold real_vec in Hv. rewrite Hv, HI. unfold v_add, v_scale, v0. cbn [vx vy vz].
      rewrite !rx_ofZ, rx_div by lra. rewrite rx_f0. repeat (rewrite rx_mul || rewrite rx_add). rewrite !Rmult_0_l, !Rplus_0_r.
      fold (seconds (cf_gyro c) m). fold dt. reflexivity. }
    destruct (Z.eqb_spec (cf_gyro c) (-1)) as [E1|E1].
    + (* the clock starts *)
      assert (D0 : dt = 0) by (subst dt; unfold seconds; rewrite E1; cbn [Z.eqb]; change (-1 =? -1)%Z with true; cbv iota; rewrite Z.sub_diag; lra).
      rewrite D0, !Rmult_0_r in EQ. rewrite (update_zero HU) in EQ. rewrite andb_true_r in HS. subst u'.
      change (0 + gyro_steps (st_ts m) t)%nat with (gyro_steps (cf_gyro c1) t). change (st_ts m) with (cf_gyro c1).
      apply (IH c1 u n w x y z fresh); [rewrite EQ; exact HU|exact HI|exact Hu|exact HS|exact H0|exact H1].
    + rewrite andb_false_r in HS. destruct Hfr as [Hfr|Hfr]; [|contradiction]. specialize (H1 Hfr).
      replace (n + (1 + gyro_steps (st_ts m) t))%nat with (S n + gyro_steps (cf_gyro c1) t)%nat by (cbn [c1 cf_gyro]; lia).
      change (st_ts m) with (cf_gyro c1).
      apply (IH c1 u' (S n) w' x' y' z' false); [rewrite EQ; exact U|exact HI|exact Hu'|exact HS| |discriminate].
      eapply Rle_trans; [apply dist3_triangle with (v := v)|]. rewrite (@seen_dist _ _ _ _ _ Hs EV), (dist3_sym u').
      eapply Rle_trans; [|apply level_step; assumption]. lra.
  - eapply Other; [unfold cf_update; rewrite Et; reflexivity|reflexivity|exact HI|reflexivity|exact HS].
  - eapply Other; [unfold cf_update; rewrite Et; reflexivity|reflexivity|exact HI|reflexivity|exact HS].
  - eapply Other; [unfold cf_update; rewrite Et; reflexivity|reflexivity|exact HI|reflexivity|exact HS].
Qed.
