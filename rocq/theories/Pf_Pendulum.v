(** Proofs about the pendulum example (C102). *)
From Coq Require Import Reals Lra Lia Psatz Machin Ratan.
From Verif Require Import Lib NumReal LibR Sensors SaCf SaDemo Spec_Sensors Spec_SaCf Spec_Tilt Spec_Settle Spec_SaDemo
  Pf_Angle Pf_Cf Pf_SaCf Pf_Tilt Pf_Settle.
Set Implicit Arguments.
Local Open Scope list_scope.
Local Open Scope R_scope.
Local Notation x2 x := (Some x : RX).

(** * Numbers *)
Lemma pi_bounds : 314 / 100 <= PI <= 315 / 100.
Proof.
  pose proof (PI_2_3_7_ineq 1) as [L U]. cbv [sum_f_R0 tg_alt PI_2_3_7_tg Ratan_seq pow Nat.mul Nat.add] in L, U.
  rewrite ?S_INR in L, U. cbn [INR] in L, U. lra.
Qed.
Lemma w_bounds : 313 / 100 <= sqrt (981 / 100) <= 314 / 100.
Proof.
  split.
  - rewrite <- (sqrt_square (313 / 100)) by lra. apply sqrt_le_1; lra.
  - apply Rle_trans with (sqrt (314 / 100 * (314 / 100))); [apply sqrt_le_1; lra|]. rewrite sqrt_square; lra.
Qed.
Lemma cos_lip_le x y : x <= y -> Rabs (cos y - cos x) <= y - x.
Proof.
  intros H. apply Rabs_le. split.
  - pose proof (@lipschitz (fun t => - cos t) sin) as L. specialize (L ltac:(intros t; pose proof (derivable_pt_lim_opp cos t _ (derivable_pt_lim_cos t)) as D; rewrite Ropp_involutive in D; exact D) ltac:(intros t; apply SIN_bound) x y H). lra.
  - pose proof (@lipschitz cos (fun t => - sin t)) as L. specialize (L ltac:(intros t; apply derivable_pt_lim_cos) ltac:(intros t; pose proof (SIN_bound t); lra) x y H). lra.
Qed.

(** * The motion *)
Definition dangle (i : nat) : R := swing_angle (S i) - swing_angle i.
Lemma angle_small i : Rabs (swing_angle i) <= PI / 60.
Proof.
  pose proof pi_bounds as P. unfold swing_angle. destruct (i <? 1000)%nat; [rewrite Rabs_right; lra|].
  rewrite Rabs_mult, (Rabs_right (PI / 60)) by lra. rewrite <- (Rmult_1_r (PI / 60)) at 2.
  apply Rmult_le_compat_l; [lra|]. apply Rabs_le. pose proof (COS_bound (sqrt (981 / 100) * (INR i / 100))). lra.
Qed.
Lemma dangle_small i : Rabs (dangle i) <= 1 / 600.
Proof.
  pose proof pi_bounds as P. pose proof w_bounds as W. unfold dangle, swing_angle.
  destruct (Nat.ltb_spec (S i) 1000) as [L|L].
  { rewrite (proj2 (Nat.ltb_lt i 1000)) by lia. rewrite Rminus_diag_eq by reflexivity. rewrite Rabs_R0. lra. }
  destruct (Nat.ltb_spec i 1000) as [L'|L'].
  - assert (i = 999%nat) by lia. subst i. replace (INR 1000) with 1000 by (rewrite INR_IZR_INZ; reflexivity).
    set (x := sqrt (981 / 100) * (1000 / 100)).
    assert (C : 1 - 1 / 50 <= cos x).
    { replace (cos x) with (cos (x - 2 * INR 5 * PI)).
      - pose proof (cos_low (x - 2 * INR 5 * PI)) as CL. cbn [INR] in CL |- *. assert (Rabs (x - 10 * PI) <= 2 / 10) by (subst x; apply Rabs_le; lra).
        replace (x - 2 * (1 + 1 + 1 + 1 + 1) * PI) with (x - 10 * PI) in * by ring.
        assert ((x - 10 * PI) * (x - 10 * PI) <= 4 / 100); [|lra].
        subst x. nra.
      - rewrite <- (cos_period (x - 2 * INR 5 * PI) 5). f_equal. ring. }
    pose proof (COS_bound x) as B. replace (PI / 60 * cos x - PI / 60) with (PI / 60 * (cos x - 1)) by ring.
    rewrite Rabs_mult, (Rabs_right (PI / 60)), (Rabs_left1 (cos x - 1)) by lra. nra.
  - rewrite <- Rmult_minus_distr_l. rewrite Rabs_mult, (Rabs_right (PI / 60)) by lra.
    set (x := sqrt (981 / 100) * (INR i / 100)). replace (sqrt (981 / 100) * (INR (S i) / 100)) with (x + sqrt (981 / 100) / 100) by (subst x; rewrite S_INR; field).
    pose proof (@cos_lip_le x (x + sqrt (981 / 100) / 100) ltac:(lra)) as C. pose proof (Rabs_pos (cos (x + sqrt (981 / 100) / 100) - cos x)). nra.
Qed.

(** * The simulation computes it *)
Definition rate (i : nat) : R := match i with O => 0 | S j => dangle j / (1 / 100) end.
Definition tick_at (i : nat) : tick RX := mkTick (x2 (INR i / 100)) (x2 (swing_angle i)) (x2 (rate i)).
Lemma rx_cos x : fcos (x2 x) = x2 (cos x).
Proof. reflexivity. Qed.
Lemma rx_sin x : fsin (x2 x) = x2 (sin x).
Proof. reflexivity. Qed.
Lemma inr1000 : INR 1000 = 1000.
Proof. rewrite INR_IZR_INZ. reflexivity. Qed.
Lemma ltb_iter i : (fofZ (Z.of_nat i) <! (x2 10 /! x2 (1 / 100)) : bool) = (i <? 1000)%nat.
Proof.
  rewrite rx_ofZ, rx_div, rx_ltb by lra. replace (10 / (1 / 100)) with (INR 1000) by (rewrite inr1000; field). rewrite <- INR_IZR_INZ.
  unfold Rltb. destruct (Rlt_dec (INR i) (INR 1000)) as [L|L]; symmetry.
  - apply Nat.ltb_lt, INR_lt, L.
  - apply Nat.ltb_ge. apply Nat.nlt_ge. intros H. apply L, lt_INR, H.
Qed.
Lemma still_ticks fuel m : (m <= fuel)%nat -> forall i, (i + m = 1000)%nat ->
  static_phase fuel (Z.of_nat i) (x2 (INR i / 100)) (x2 10) (x2 (1 / 100)) (x2 (PI / 60)) = Ok (map tick_at (seq i m), x2 10).
Proof.
  revert m. induction fuel as [|fuel IH]; intros m Hm i Hi; cbn [static_phase]; rewrite ltb_iter.
  - assert (m = 0%nat) by lia. subst m. replace i with 1000%nat by lia. rewrite (proj2 (Nat.ltb_ge 1000 1000)) by lia. cbn [seq map]. rewrite inr1000. do 3 f_equal. field.
  - destruct (Nat.ltb_spec i 1000) as [L|L].
    + destruct m as [|m]; [lia|]. rewrite rx_add. replace (INR i / 100 + 1 / 100) with (INR (S i) / 100) by (rewrite S_INR; field).
      replace (Z.of_nat i + 1)%Z with (Z.of_nat (S i)) by lia. rewrite (IH m) by lia. cbn [bind seq map]. do 3 f_equal.
      unfold tick_at, swing_angle. rewrite (proj2 (Nat.ltb_lt i 1000)) by lia. do 2 f_equal.
      destruct i as [|j]; [reflexivity|]. cbn [rate]. unfold dangle, swing_angle. rewrite !(proj2 (Nat.ltb_lt _ 1000)) by lia. rewrite rx_f0. f_equal. field.
    + assert (m = 0%nat) by lia. subst m. replace i with 1000%nat by lia. cbn [seq map]. rewrite inr1000. do 3 f_equal. field.
Qed.
Lemma swing_ticks fuel m : (m <= fuel)%nat -> forall i, (i + m = 1000)%nat ->
  swing_phase fuel (Z.of_nat i) (x2 (INR (1000 + i) / 100)) (x2 (swing_angle (999 + i))) (x2 10) (x2 (1 / 100)) (x2 (PI / 60)) f1 =
  Ok (map tick_at (seq (1000 + i) m)).
Proof.
  revert m. induction fuel as [|fuel IH]; intros m Hm i Hi; cbn [swing_phase]; rewrite ltb_iter.
  - assert (m = 0%nat) by lia. subst m. rewrite (proj2 (Nat.ltb_ge i 1000)) by lia. reflexivity.
  - destruct (Nat.ltb_spec i 1000) as [L|L].
    + destruct m as [|m]; [lia|]. unfold grav. rewrite rx_lit, rx_f1, rx_div, rx_sqrt, rx_mul by lra.
      replace (981 / 100 / 1) with (981 / 100) by field. rewrite rx_cos.
      rewrite rx_mul, rx_sub, rx_div, rx_add by lra.
      assert (E : PI / 60 * cos (sqrt (981 / 100) * (INR (1000 + i) / 100)) = swing_angle (1000 + i)).
      { unfold swing_angle. rewrite (proj2 (Nat.ltb_ge (1000 + i) 1000)) by lia. reflexivity. }
      rewrite E. replace (INR (1000 + i) / 100 + 1 / 100) with (INR (1000 + S i) / 100) by (rewrite Nat.add_succ_r, S_INR; field).
      replace (Z.of_nat i + 1)%Z with (Z.of_nat (S i)) by lia. replace (1000 + i)%nat with (999 + S i)%nat at 3 by lia.
      rewrite <- rx_f1. rewrite (IH m) by lia. cbn [bind]. reflexivity.
    + assert (m = 0%nat) by lia. subst m. reflexivity.
Qed.
Lemma pendulum_run fuel : (1000 <= fuel)%nat ->
  pendulum fuel (fofZ 10) (fofZ 10) (fofZ 100) f1 (fpi /! fofZ 60) = Ok (map tick_at (seq 0 2000)).
Proof.
  intros Hf. unfold pendulum. change (fpi : RX) with (x2 PI). rewrite !rx_ofZ. cbv zeta.
  replace (f1 /! x2 100) with (x2 (1 / 100)) by (rewrite rx_f1, rx_div by lra; reflexivity). rewrite rx_div by lra.
  replace (f0 : RX) with (x2 (INR 0 / 100)) by (rewrite rx_f0; f_equal; cbn [INR]; field).
  change 0%Z with (Z.of_nat 0). rewrite (@still_ticks fuel 1000) by lia. cbn [bind].
  pose proof (@swing_ticks fuel 1000 Hf 0%nat eq_refl) as S. rewrite !Nat.add_0_r, inr1000 in S.
  replace (1000 / 100) with 10 in S by field. change (swing_angle 999) with (PI / 60) in S. rewrite S. cbn [bind].
  rewrite <- map_app. change (seq 1000 1000) with (seq (0 + 1000) 1000). rewrite <- (seq_app 1000 1000 0). reflexivity.
Qed.

(** * Geometry *)
Definition uvec (th : R) : R * R * R := (- sin th, 0, cos th).
Lemma uvec_unit th : unit3 (uvec th).
Proof. unfold unit3, uvec, dot3. pose proof (sin2_cos2 th). unfold Rsqr in *. lra. Qed.
Lemma uvec_dist th th' : dist3 (uvec th) (uvec th') <= Rabs (th' - th).
Proof.
  apply sq_le; [apply Rabs_pos|]. rewrite dist3_dot by apply uvec_unit. unfold uvec, dot3.
  replace (Rabs (th' - th) * Rabs (th' - th)) with ((th' - th) * (th' - th)) by (rewrite <- Rabs_mult; symmetry; apply Rabs_right, Rle_ge, Rle_0_sqr).
  pose proof (cos_low (th' - th)) as C. rewrite cos_minus in C. lra.
Qed.
Lemma direction_near u1 u2 u3 e1 e2 e3 g e : unit3 (u1, u2, u3) -> 0 < g -> 0 <= e < 1 ->
  e1 * e1 + e2 * e2 + e3 * e3 <= g * e * (g * e) ->
  let n := norm3 (g * u1 + e1) (g * u2 + e2) (g * u3 + e3) in
  g * (1 - e) <= n /\
  dist3 (u1, u2, u3) (direction (g * u1 + e1) (g * u2 + e2) (g * u3 + e3)) *
  dist3 (u1, u2, u3) (direction (g * u1 + e1) (g * u2 + e2) (g * u3 + e3)) <= e * e + e * e * (e * e).
Proof.
  intros Hu Hg He Hq n. assert (Un : u1 * u1 + u2 * u2 + u3 * u3 = 1) by exact Hu.
  set (s := u1 * e1 + u2 * e2 + u3 * e3). set (q := e1 * e1 + e2 * e2 + e3 * e3) in *.
  assert (Q0 : 0 <= q) by (subst q; pose proof (Rle_0_sqr e1); pose proof (Rle_0_sqr e2); pose proof (Rle_0_sqr e3); unfold Rsqr in *; lra).
  assert (N2 : n * n = g * g + 2 * g * s + q).
  { subst n. rewrite norm3_sq. subst s q. replace (g * g) with (g * g * (u1 * u1 + u2 * u2 + u3 * u3)) at 1 by (rewrite Un; ring). ring. }
  assert (SQ : s * s <= q).
  { pose proof (Rle_0_sqr (u1 * e2 - u2 * e1)). pose proof (Rle_0_sqr (u1 * e3 - u3 * e1)). pose proof (Rle_0_sqr (u2 * e3 - u3 * e2)). unfold Rsqr in *.
    replace q with ((u1 * u1 + u2 * u2 + u3 * u3) * q) by (rewrite Un; ring). subst s q. nra. }
  assert (P0 : 0 <= g * e) by nra.
  assert (S1 : - (g * e) <= s) by (destruct (Rle_or_lt (- (g * e)) s) as [L|L]; [exact L|nra]).
  assert (G1 : 0 < g + s) by nra.
  assert (Npos : 0 <= n) by apply norm3_pos.
  assert (LN : g * (1 - e) <= n).
  { assert (g + s <= n) by (apply sq_le; [exact Npos|rewrite N2; nra]). nra. }
  split; [exact LN|].
  assert (N0 : 0 < n) by nra.
  assert (ED : dot3 (u1, u2, u3) (direction (g * u1 + e1) (g * u2 + e2) (g * u3 + e3)) = (g + s) / n).
  { unfold direction. fold n. unfold dot3. subst s. replace (g + (u1 * e1 + u2 * e2 + u3 * e3)) with (g * (u1 * u1 + u2 * u2 + u3 * u3) + (u1 * e1 + u2 * e2 + u3 * e3)) by (rewrite Un; ring). field. lra. }
  assert (UD : unit3 (direction (g * u1 + e1) (g * u2 + e2) (g * u3 + e3))).
  { unfold direction. fold n. unfold unit3, dot3. pose proof (norm3_sq (g * u1 + e1) (g * u2 + e2) (g * u3 + e3)) as M. fold n in M.
    replace ((g * u1 + e1) / n * ((g * u1 + e1) / n) + (g * u2 + e2) / n * ((g * u2 + e2) / n) + (g * u3 + e3) / n * ((g * u3 + e3) / n))
      with (((g * u1 + e1) * (g * u1 + e1) + (g * u2 + e2) * (g * u2 + e2) + (g * u3 + e3) * (g * u3 + e3)) / (n * n)) by (field; lra).
    rewrite <- M. field. lra. }
  rewrite dist3_dot, ED by assumption. set (r := (g + s) / n).
  assert (R0 : 0 <= r) by (subst r; left; apply Rdiv_lt_0_compat; lra).
  assert (R2 : (1 - e * e) * (n * n) <= r * r * (n * n)).
  { replace (r * r * (n * n)) with ((g + s) * (g + s)) by (subst r; field; lra). rewrite N2.
    assert (0 <= (g * e * (g * e) - q) * (1 - e * e)) by (apply Rmult_le_pos; nra).
    pose proof (Rle_0_sqr (s + e * e * g)) as Z. unfold Rsqr in Z. nra. }
  assert (R1 : 1 - e * e <= r * r) by (apply (Rmult_le_reg_r (n * n)); [nra|exact R2]).
  set (x := e * e) in *. assert (X : 0 <= x <= 1) by (subst x; nra).
  assert (1 - (x + x * x) / 2 <= r); [|lra].
  apply sq_le; [exact R0|]. apply Rle_trans with (1 - x); [|exact R1].
  assert (0 <= x * x * (3 / 4 - x / 2 - x * x / 4)) by (apply Rmult_le_pos; nra). nra.
Qed.
Lemma seen_exists r u : exists v, seen_after r u v.
Proof.
  destruct r as [[a b] d], u as [[g1 g2] g3]. set (h1 := a / 2). set (h2 := b / 2). set (h3 := d / 2).
  assert (0 < 1 + (h1 * h1 + h2 * h2 + h3 * h3)).
  { pose proof (Rle_0_sqr h1). pose proof (Rle_0_sqr h2). pose proof (Rle_0_sqr h3). unfold Rsqr in *. lra. }
  set (n := 1 + (h1 * h1 + h2 * h2 + h3 * h3)) in *.
  set (s := 1 - (h1 * h1 + h2 * h2 + h3 * h3)). set (k := 2 * (h1 * g1 + h2 * g2 + h3 * g3)).
  exists ((s * g1 + k * h1 + 2 * (g2 * h3 - g3 * h2)) / n, (s * g2 + k * h2 + 2 * (g3 * h1 - g1 * h3)) / n,
    (s * g3 + k * h3 + 2 * (g1 * h2 - g2 * h1)) / n).
  unfold seen_after, cross3. replace a with (2 * h1) by (subst h1; field). replace b with (2 * h2) by (subst h2; field). replace d with (2 * h3) by (subst h3; field).
  unfold n in *. f_equal; [f_equal|]; unfold s, k; field; lra.
Qed.
Lemma seen_close r r' u v v' : unit3 u -> unit3 v' -> seen_after r u v -> seen_after r' u v' ->
  dist3 v v' <= dist3 r r'.
Proof.
  destruct r as [[r1 r2] r3], r' as [[q1 q2] q3], u as [[u1 u2] u3], v as [[v1 v2] v3], v' as [[w1 w2] w3].
  unfold seen_after, cross3. intros Hu Hw H1 H2. injection H1 as A1 A2 A3. injection H2 as B1 B2 B3.
  pose proof (dot_bound Hu Hw) as DB. unfold unit3, dot3 in Hu, Hw, DB. unfold dist3.
  set (d1 := v1 - w1). set (d2 := v2 - w2). set (d3 := v3 - w3). set (f1 := r1 - q1). set (f2 := r2 - q2). set (f3 := r3 - q3).
  set (m1 := (u1 + w1) / 2). set (m2 := (u2 + w2) / 2). set (m3 := (u3 + w3) / 2).
  assert (C1 : d1 = d2 / 2 * r3 - d3 / 2 * r2 + (m2 * f3 - m3 * f2)) by (subst d1 d2 d3 f1 f2 f3 m1 m2 m3; lra).
  assert (C2 : d2 = d3 / 2 * r1 - d1 / 2 * r3 + (m3 * f1 - m1 * f3)) by (subst d1 d2 d3 f1 f2 f3 m1 m2 m3; lra).
  assert (C3 : d3 = d1 / 2 * r2 - d2 / 2 * r1 + (m1 * f2 - m2 * f1)) by (subst d1 d2 d3 f1 f2 f3 m1 m2 m3; lra).
  assert (M : m1 * m1 + m2 * m2 + m3 * m3 <= 1) by (subst m1 m2 m3; nra).
  clearbody d1 d2 d3 f1 f2 f3 m1 m2 m3. clear A1 A2 A3 B1 B2 B3.
  assert (E : d1 * d1 + d2 * d2 + d3 * d3 = (m2 * f3 - m3 * f2) * d1 + (m3 * f1 - m1 * f3) * d2 + (m1 * f2 - m2 * f1) * d3).
  { transitivity (d1 * (d2 / 2 * r3 - d3 / 2 * r2 + (m2 * f3 - m3 * f2)) + d2 * (d3 / 2 * r1 - d1 / 2 * r3 + (m3 * f1 - m1 * f3)) +
      d3 * (d1 / 2 * r2 - d2 / 2 * r1 + (m1 * f2 - m2 * f1))); [rewrite <- C1, <- C2, <- C3; ring|field]. }
  clear C1 C2 C3.
  set (p1 := m2 * f3 - m3 * f2) in *. set (p2 := m3 * f1 - m1 * f3) in *. set (p3 := m1 * f2 - m2 * f1) in *.
  assert (PN : p1 * p1 + p2 * p2 + p3 * p3 <= f1 * f1 + f2 * f2 + f3 * f3).
  { assert (L : p1 * p1 + p2 * p2 + p3 * p3 = (m1 * m1 + m2 * m2 + m3 * m3) * (f1 * f1 + f2 * f2 + f3 * f3) - (m1 * f1 + m2 * f2 + m3 * f3) * (m1 * f1 + m2 * f2 + m3 * f3)) by (subst p1 p2 p3; ring).
    rewrite L. pose proof (Rle_0_sqr (m1 * f1 + m2 * f2 + m3 * f3)) as Z. unfold Rsqr in Z.
    assert (0 <= f1 * f1 + f2 * f2 + f3 * f3) by (pose proof (Rle_0_sqr f1); pose proof (Rle_0_sqr f2); pose proof (Rle_0_sqr f3); unfold Rsqr in *; lra). nra. }
  unfold norm3. apply sqrt_le_1_alt. eapply Rle_trans; [|exact PN].
  pose proof (Rle_0_sqr (p1 - d1)). pose proof (Rle_0_sqr (p2 - d2)). pose proof (Rle_0_sqr (p3 - d3)). unfold Rsqr in *. nra.
Qed.
Lemma seen_planar th d : cos (d / 2) <> 0 -> seen_after (0, 2 * tan (d / 2), 0) (uvec th) (uvec (th + d)).
Proof.
  intros H. set (h := d / 2) in *. set (m := th + h). replace (th + d) with (m + h) by (subst m h; field).
  replace th with (m - h) by (subst m; ring). clearbody m h. unfold seen_after, uvec, cross3, tan.
  rewrite !sin_plus, !cos_plus, !sin_minus, !cos_minus. f_equal; [f_equal|]; field; exact H.
Qed.
Lemma tan_near d : Rabs d <= 1 / 600 -> cos (d / 2) <> 0 /\ Rabs (d - 2 * tan (d / 2)) <= 1 / 1000000.
Proof.
  assert (X : forall x, 0 <= x <= 1 / 1200 -> 0 < cos x /\ 0 <= tan x - x <= 1 / 2000000).
  { intros x Hx. pose proof PI2_1 as P. pose proof (cos_low x) as C. pose proof (@sin_low x ltac:(lra)) as S1.
    pose proof (@sin_lip 0 x ltac:(lra)) as S2. rewrite sin_0 in S2. assert (C0 : 1 - 1 / 1000000 <= cos x) by nra. split; [lra|]. unfold tan.
    assert (T : sin x = sin x / cos x * cos x) by (field; lra). set (t := sin x / cos x) in *. pose proof (COS_bound x). split; nra. }
  intros H. destruct (Rle_or_lt 0 d) as [L|L].
  - rewrite Rabs_right in H by lra. destruct (X (d / 2) ltac:(lra)) as [X1 X2]. split; [lra|]. apply Rabs_le. lra.
  - rewrite Rabs_left in H by lra. destruct (X (- (d / 2)) ltac:(lra)) as [X1 X2]. rewrite cos_neg in X1. rewrite tan_neg in X2. split; [lra|]. apply Rabs_le. lra.
Qed.

(** * One round of the program *)
Definition stamp (i : nat) : Z := (1583315232492 + 10 * Z.of_nat i)%Z.
Definition before (i : nat) : Z := match i with O => (-1)%Z | S j => stamp j end.
Lemma Int_part_IZR z : Int_part (IZR z) = z.
Proof.
  destruct (base_Int_part (IZR z)) as [A B]. apply le_IZR in A. assert (H : IZR z < IZR (Int_part (IZR z) + 1)) by (rewrite plus_IZR; lra).
  apply lt_IZR in H. lia.
Qed.
Lemma stamp_run i : (i < 2000)%nat -> demo_ts (x2 (INR i / 100)) = Ok (stamp i).
Proof.
  intros H. unfold demo_ts. rewrite !rx_ofZ, rx_mul, rx_add.
  replace (1583315232492 + 1000 * (INR i / 100)) with (IZR (stamp i)) by (unfold stamp; rewrite plus_IZR, mult_IZR, <- INR_IZR_INZ; field).
  cbn [ftoZ num_real]. unfold rtoZ, Rtrunc, Rltb. destruct (Rlt_dec (IZR (stamp i)) 0) as [L|L].
  { exfalso. apply (lt_IZR (stamp i) 0) in L. unfold stamp in L. lia. }
  rewrite Int_part_IZR. cbv zeta.
  replace ((- 2 ^ 63 <=? stamp i)%Z && (stamp i <? 2 ^ 63)%Z) with true; [reflexivity|].
  symmetry. apply andb_true_iff. unfold stamp. split; [apply Z.leb_le|apply Z.ltb_lt]; lia.
Qed.
Definition ha : R := 125 / 10000.
Definition hb : R := 175 / 1000000.
Definition hd0 : R := 525 / 10000.
Lemma taken_tenth : taken (1 / 10) = 40 / 401.
Proof. unfold taken. field. Qed.
Lemma residual_tenth : residual (1 / 10) ha hb <= 144 / 10000.
Proof.
  unfold residual. rewrite taken_tenth. cbv zeta.
  assert (sqrt (hb * hb + 40 / 401 * (40 / 401 * (ha * ha) - hb * hb)) <= 1259 / 1000000).
  { apply Rle_trans with (sqrt (1259 / 1000000 * (1259 / 1000000))); [apply sqrt_le_1_alt; unfold ha, hb; lra|rewrite sqrt_square; lra]. }
  unfold hb at 1. apply Rle_trans with ((175 / 1000000 + 1259 / 1000000) / (40 / 401)); [|lra].
  unfold Rdiv at 1 4. apply Rmult_le_compat_r; [left; apply Rinv_0_lt_compat; lra|lra].
Qed.
(** what is left after a second *)
Lemma level_tenth n : (100 <= n)%nat -> level_of (taken (1 / 10)) ha hb hd0 n <= 15 / 1000.
Proof.
  intros H. unfold level_of. pose proof residual_tenth as R. rewrite residual_balance in R. rewrite taken_tenth in *.
  set (S := balance (40 / 401) ha hb) in *.
  assert (S0 : 0 <= S) by (subst S; pose proof (@balance_low (40 / 401) ha hb ltac:(lra)) as B; unfold ha, hb in *; lra).
  set (rho := sqrt (1 - 40 / 401)). assert (Q : rho * rho = 361 / 401) by (subst rho; rewrite sqrt_sqrt; lra).
  assert (R0 : 0 <= rho) by apply sqrt_pos.
  assert (P : 0 <= rho ^ n <= 6 / 1000).
  { split; [apply pow_le, R0|]. replace n with (100 + (n - 100))%nat by lia. rewrite pow_add.
    assert (P1 : rho ^ 100 <= 6 / 1000).
    { change 100%nat with (2 * 50)%nat. rewrite pow_mult. replace (rho ^ 2) with (361 / 401) by (cbn [pow]; lra).
      change 50%nat with (10 * 5)%nat. rewrite pow_mult. assert (P10 : 0 <= (361 / 401) ^ 10 <= 35 / 100) by (split; [apply pow_le; lra|cbn [pow]; lra]).
      apply Rle_trans with ((35 / 100) ^ 5); [apply pow_incr, P10|cbn [pow]; lra]. }
    assert (P2 : 0 <= rho ^ (n - 100) <= 1).
    { split; [apply pow_le, R0|]. apply Rle_trans with (1 ^ (n - 100)); [apply pow_incr; nra|rewrite pow1; lra]. }
    assert (0 <= rho ^ 100) by (apply pow_le, R0). nra. }
  unfold hd0. nra.
Qed.

Definition imu_at (i : nat) (a b c p q r : R) : imu RX :=
  let th := swing_angle i in
  mkImu (mkSt (mkSensor ACCELEROMETER (mkV (x2 (- (981 / 100) * sin th + a)) (x2 (0 + b)) (x2 (- 1 * rate i ^ 2 + 981 / 100 * cos th + c)))) (stamp i))
    (mkSt (mkSensor GYROSCOPE (mkV (x2 (0 + p)) (x2 (rate i + q)) (x2 (0 + r)))) (stamp i))
    (mkSt (mkSensor MAGNETOMETER (mkV (x2 (48 / 100 * cos (6048 / 100 * PI / 180 + th))) (x2 0) (x2 (48 / 100 * sin (6048 / 100 * PI / 180 + th))))) (stamp i)).
Lemma imu_run i na ng a b c p q r : (i < 2000)%nat -> real_vec na a b c -> real_vec ng p q r ->
  demo_imu f1 (tick_at i) na ng = Ok (imu_at i a b c p q r).
Proof.
  intros H Ha Hg. unfold demo_imu. cbn [tick_at tk_t tk_theta tk_vel]. rewrite stamp_run by exact H. cbn [bind].
  unfold real_vec in Ha, Hg. rewrite Ha, Hg. cbn [vx vy vz]. unfold imu_at, grav, flux, inclination. change (fpi : RX) with (x2 PI).
  rewrite !rx_lit, !rx_ofZ, rx_f0, rx_f1, rx_powi by lra. repeat (rewrite rx_opp || rewrite rx_sin || rewrite rx_cos || rewrite rx_mul || rewrite rx_add || rewrite rx_div by lra).
  reflexivity.
Qed.
Lemma rate_small i : Rabs (rate i) <= 1 / 6.
Proof.
  destruct i as [|j]; [cbn [rate]; rewrite Rabs_R0; lra|]. cbn [rate]. pose proof (dangle_small j) as D.
  unfold Rdiv. rewrite Rabs_mult, (Rabs_right (/ (1 * / 100))) by lra. lra.
Qed.
Lemma prev_near i : dist3 (uvec (swing_angle (Nat.pred i))) (uvec (swing_angle i)) <= 1 / 600.
Proof.
  eapply Rle_trans; [apply uvec_dist|]. destruct i as [|j]; [cbn [Nat.pred]; rewrite Rminus_diag_eq, Rabs_R0 by reflexivity; lra|].
  cbn [Nat.pred]. apply dangle_small.
Qed.
Definition round (i : nat) (m : imu RX) : list ((R * R * R) * stamped (sensor RX)) :=
  let u := uvec (swing_angle i) in [(u, im_acc m); (u, im_gyro m); (u, im_magn m)].
Lemma abs_sq x e : Rabs x <= e -> x * x <= e * e.
Proof. intros H. pose proof (Rabs_pos x). rewrite <- (Rabs_right (x * x)) by (apply Rle_ge, Rle_0_sqr). rewrite Rabs_mult. nra. Qed.
Lemma round_moving i a b c p q r : (i < 2000)%nat -> Rabs a <= 5 / 100 -> Rabs b <= 5 / 100 -> Rabs c <= 5 / 100 ->
  Rabs p <= 1 / 100 -> Rabs q <= 1 / 100 -> Rabs r <= 1 / 100 ->
  moving ha hb (uvec (swing_angle (Nat.pred i))) (before i) false (round i (imu_at i a b c p q r)).
Proof.
  intros Hi Ha Hb Hc Hp Hq Hr. cbn [round moving imu_at im_acc im_gyro im_magn st_data st_ts s_type s_val].
  set (th := swing_angle i). set (v := rate i). pose proof (rate_small i) as Hv. fold v in Hv.
  split.
  { (* accelerometer *)
    pose proof (@abs_sq _ _ Ha). pose proof (@abs_sq _ _ Hb). pose proof (@abs_sq _ _ Hv).
    assert (Hc2 : Rabs (c - v * v) <= 5 / 100 + 1 / 36).
    { apply Rle_trans with (Rabs c + Rabs (- (v * v))); [apply Rabs_triang|]. rewrite Rabs_Ropp, (Rabs_right (v * v)) by (apply Rle_ge, Rle_0_sqr). lra. }
    pose proof (@abs_sq _ _ Hc2).
    destruct (@direction_near (- sin th) 0 (cos th) a b (c - v * v) (981 / 100) (108 / 10000) (uvec_unit th)) as [N D]; try lra.
    exists (- (981 / 100) * sin th + a), (0 + b), (- 1 * v ^ 2 + 981 / 100 * cos th + c). split; [reflexivity|].
    replace (981 / 100 * - sin th + a) with (- (981 / 100) * sin th + a) in * by ring. replace (981 / 100 * 0 + b) with (0 + b) in * by ring.
    replace (981 / 100 * cos th + (c - v * v)) with (- 1 * v ^ 2 + 981 / 100 * cos th + c) in * by ring.
    split; [pose proof feps_small; lra|].
    eapply Rle_trans; [apply dist3_triangle with (v := uvec th)|]. pose proof (prev_near i) as PN. fold th in PN.
    assert (dist3 (uvec th) (direction (- (981 / 100) * sin th + a) (0 + b) (- 1 * v ^ 2 + 981 / 100 * cos th + c)) <= 1081 / 100000).
    { apply sq_le; [lra|]. unfold uvec. lra. }
    unfold ha. lra. }
  split; [|split; [left; reflexivity|split; [do 3 eexists; reflexivity|split; [unfold stamp; lia|exact I]]]].
  (* gyroscope *)
  set (dt := seconds (before i) _).
  destruct (seen_exists ((0 + p) * dt, (v + q) * dt, (0 + r) * dt) (uvec (swing_angle (Nat.pred i)))) as (s & Hs).
  exists (0 + p), (v + q), (0 + r), s. split; [reflexivity|]. cbv zeta. split; [exact Hs|]. split; [apply uvec_unit|].
  destruct i as [|j]; [reflexivity|]. cbn [before Nat.pred] in *. destruct (Z.eqb_spec (stamp j) (-1)) as [E|E]; [unfold stamp in E; lia|].
  assert (ED : dt = 1 / 100).
  { subst dt. unfold seconds. cbn [st_ts before]. rewrite (proj2 (Z.eqb_neq _ _) E). unfold stamp.
    replace (1583315232492 + 10 * Z.of_nat (S j) - (1583315232492 + 10 * Z.of_nat j))%Z with 10%Z by lia. lra. }
  rewrite ED in Hs. pose proof (dangle_small j) as DS. destruct (@tan_near _ DS) as [T1 T2].
  pose proof (@seen_planar (swing_angle j) (dangle j) T1) as SP.
  replace (swing_angle j + dangle j) with th in SP by (subst th; unfold dangle; ring).
  eapply Rle_trans; [exact (@seen_close _ _ _ _ _ (uvec_unit _) (uvec_unit _) Hs SP)|].
  apply sq_le; [unfold hb; lra|]. unfold dist3. rewrite norm3_sq.
  replace ((v + q) * (1 / 100)) with (dangle j + q * (1 / 100)) by (subst v; cbn [rate]; field).
  set (t := dangle j - 2 * tan (dangle j / 2)) in *. replace (dangle j + q * (1 / 100) - 2 * tan (dangle j / 2)) with (t + q * (1 / 100)) by (subst t; ring).
  pose proof (@abs_sq _ _ Hp). pose proof (@abs_sq _ _ Hr).
  assert (A1 : Rabs (t + q * (1 / 100)) <= 1 / 1000000 + 1 / 100 * (1 / 100)).
  { eapply Rle_trans; [apply Rabs_triang|]. rewrite Rabs_mult, (Rabs_right (1 / 100)) by lra. lra. }
  pose proof (@abs_sq _ _ A1). unfold hb. lra.
Qed.

(** * The whole program *)
Lemma gains_acc : k_acc (sacf_gains : cfconf RX) = x2 (1 / 10).
Proof. unfold sacf_gains. cbn [k_acc]. rewrite rx_lit by lra. reflexivity. Qed.
Definition on_track (c : sacf RX) (i n : nat) : Prop := exists w x y z, unit_quat (sc_q c) w x y z /\
  sc_interr c = v0 /\ dist3 (uvec (swing_angle i)) (vertical w x y z) <= level_of (taken (1 / 10)) ha hb hd0 n.
Lemma round_run fuel c i a b d p q r : (3 <= fuel)%nat -> (i < 2000)%nat -> Rabs a <= 5 / 100 -> Rabs b <= 5 / 100 -> Rabs d <= 5 / 100 ->
  Rabs p <= 1 / 100 -> Rabs q <= 1 / 100 -> Rabs r <= 1 / 100 ->
  sc_gyro c = before i -> on_track c (Nat.pred i) (Nat.pred i) ->
  exists c', sacf_run fuel sacf_gains c (map snd (round i (imu_at i a b d p q r))) = Ok c' /\ sc_gyro c' = stamp i /\ on_track c' i i.
Proof.
  intros Hf Hi Ha Hb Hd Hp Hq Hr Hg (w & x & y & z & HU & HI & HD).
  pose proof (@round_moving i a b d p q r Hi Ha Hb Hd Hp Hq Hr) as HM.
  destruct (@moving_run fuel sacf_gains (1 / 10) 0 ha hb hd0 (round i (imu_at i a b d p q r)) Hf gains_acc) with
    (c := recall c) (u := uvec (swing_angle (Nat.pred i))) (n := Nat.pred i) (w := w) (x := x) (y := y) (z := z) (fresh := false)
    as (c' & w' & x' & y' & z' & R1 & R2 & R3 & R4 & R5); try (unfold ha, hb, hd0; lra); auto.
  - pose proof residual_tenth. unfold hd0. lra.
  - apply uvec_unit.
  - cbn [recall cf_gyro]. rewrite Hg. exact HM.
  - exists (forget c'). split; [rewrite <- (forget_recall c) at 1; rewrite run_forget, R1; reflexivity|].
    split; [cbn [forget sc_gyro]; rewrite R4; reflexivity|].
    exists w', x', y', z'. split; [exact R2|]. split; [exact R3|].
    cbn [round true_end imu_at im_acc im_gyro im_magn st_data s_type] in R5.
    replace (Nat.pred i + gyro_steps (cf_gyro (recall c)) (round i (imu_at i a b d p q r)))%nat with i in R5; [exact R5|].
    cbn [round gyro_steps imu_at im_acc im_gyro im_magn st_data s_type recall cf_gyro]. rewrite Hg.
    destruct i as [|j]; [reflexivity|]. cbn [before Nat.pred]. destruct (Z.eqb_spec (stamp j) (-1)) as [E|E]; [unfold stamp in E; lia|]. cbn. lia.
Qed.
Lemma track_angles c i : (100 <= i)%nat -> on_track c i i -> exists roll pitch yaw,
  fst (fused_orientation c) = (x2 roll, x2 pitch, x2 yaw) /\ Rabs (pitch - swing_angle i) < degree /\ Rabs roll < degree.
Proof.
  intros Hi (w & x & y & z & [Hq HU] & _ & HD). pose proof (level_tenth Hi) as HL. assert (D : dist3 (uvec (swing_angle i)) (vertical w x y z) <= 15 / 1000) by lra. clear HD HL.
  destruct (euler_real HU) as (roll & pitch & yaw & E1 & B1 & B2 & B3 & E31 & _ & _ & E32 & E33).
  exists roll, pitch, yaw. split.
  { unfold fused_orientation. unfold real_quat in Hq. rewrite Hq, E1. reflexivity. }
  pose proof pi_bounds as P. pose proof (angle_small i) as A. set (th := swing_angle i) in *.
  pose proof (dist3_pos (uvec th) (vertical w x y z)) as D0. pose proof (@dist3_dot _ _ (uvec_unit th) (@vertical_unit w x y z HU)) as DD.
  assert (DT : 1 - 1125 / 10000000 <= dot3 (uvec th) (vertical w x y z)) by nra.
  unfold uvec, vertical, dot3 in DT. rewrite E31, E32, E33 in DT.
  assert (At : - (1 / 19) <= th <= 1 / 19) by (pose proof (Rle_abs th) as T1; pose proof (Rle_abs (- th)) as T2; rewrite Rabs_Ropp in T2; lra).
  assert (Ct : 99 / 100 <= cos th) by (pose proof (cos_low th); nra).
  assert (Cp : 0 <= cos pitch) by (apply cos_ge_0; lra). pose proof (COS_bound roll) as Br. pose proof (COS_bound th) as Bt. pose proof (COS_bound pitch) as Bp.
  assert (C1 : 1 - 1125 / 10000000 <= cos (pitch - th)).
  { assert (T1 : cos pitch * cos roll <= cos pitch) by nra. assert (T2 : cos th * (cos pitch * cos roll) <= cos th * cos pitch) by (apply Rmult_le_compat_l; lra).
    rewrite cos_minus. lra. }
  (* a lower bound for the sine of half a degree *)
  assert (Deg : 174 / 10000 <= degree) by (unfold degree; lra).
  assert (C2 : cos (174 / 10000) < 1 - 1125 / 10000000).
  { replace (174 / 10000) with (2 * (87 / 10000)) by field. rewrite cos_2a_sin. pose proof (@sin_low (87 / 10000) ltac:(lra)) as S1. pose proof (cos_low (87 / 10000)).
    assert (86 / 10000 <= sin (87 / 10000)) by lra. nra. }
  split.
  - apply Rle_lt_trans with (Rabs (pitch - th)); [lra|]. destruct (Rlt_or_le (Rabs (pitch - th)) degree) as [L|L]; [exact L|exfalso].
    assert (cos (Rabs (pitch - th)) <= cos (174 / 10000)).
    { apply cos_mono; [lra|lra|]. apply Rle_trans with (Rabs pitch + Rabs (- th)); [apply Rabs_triang|]. rewrite Rabs_Ropp.
      assert (Rabs pitch <= PI / 2) by (apply Rabs_le; lra). lra. }
    assert (cos (Rabs (pitch - th)) = cos (pitch - th)) by (unfold Rabs; destruct (Rcase_abs (pitch - th)); [apply cos_neg|reflexivity]). lra.
  - assert (V : dist3 (uvec th) (vertical w x y z) * dist3 (uvec th) (vertical w x y z) =
      (- sin th - r31 w x y z) * (- sin th - r31 w x y z) + (0 - r32 w x y z) * (0 - r32 w x y z) + (cos th - r33 w x y z) * (cos th - r33 w x y z)).
    { unfold uvec, vertical, dist3. rewrite norm3_sq. ring. }
    pose proof (Rle_0_sqr (- sin th - r31 w x y z)) as V1. pose proof (Rle_0_sqr (0 - r32 w x y z)) as V2. pose proof (Rle_0_sqr (cos th - r33 w x y z)) as V3. unfold Rsqr in *.
    assert (DQ : dist3 (uvec th) (vertical w x y z) * dist3 (uvec th) (vertical w x y z) <= 15 / 1000 * (15 / 1000)) by nra.
    assert (V4 : cos th - r33 w x y z <= 15 / 1000) by (destruct (Rle_or_lt (cos th - r33 w x y z) (15 / 1000)) as [L|L]; [exact L|nra]).
    rewrite E33 in V4.
    assert (Cq : 97 / 100 <= cos pitch * cos roll) by lra. assert (Cr : 97 / 100 <= cos roll) by nra. assert (Cp2 : 97 / 100 <= cos pitch) by nra.
    assert (S2 : cos pitch * sin roll * (cos pitch * sin roll) <= 15 / 1000 * (15 / 1000)) by (rewrite E32 in V, V2; nra).
    destruct (Rlt_or_le (Rabs roll) degree) as [L|L]; [exact L|exfalso].
    assert (CR : cos (Rabs roll) = cos roll) by (unfold Rabs; destruct (Rcase_abs roll); [apply cos_neg|reflexivity]).
    assert (CL : cos (Rabs roll) <= cos (174 / 10000)) by (apply cos_mono; [lra|lra|apply Rabs_le; lra]).
    assert (C3 : cos (174 / 10000) <= 1 - 147 / 1000000).
    { replace (174 / 10000) with (2 * (87 / 10000)) by field. rewrite cos_2a_sin. pose proof (@sin_low (87 / 10000) ltac:(lra)) as S1. pose proof (cos_low (87 / 10000)).
      assert (86 / 10000 <= sin (87 / 10000)) by lra. nra. }
    pose proof (sin2_cos2 roll) as SC. unfold Rsqr in SC.
    assert (SR : 29 / 100000 <= sin roll * sin roll) by nra.
    assert (97 / 100 * (97 / 100) * (sin roll * sin roll) <= cos pitch * sin roll * (cos pitch * sin roll)).
    { replace (cos pitch * sin roll * (cos pitch * sin roll)) with (cos pitch * cos pitch * (sin roll * sin roll)) by ring.
      apply Rmult_le_compat_r; [nra|]. nra. }
    lra.
Qed.
Lemma demo_angles_run fuel : (3 <= fuel)%nat -> forall draws i c, Forall small_draw draws -> (i + List.length draws <= 2000)%nat ->
  sc_gyro c = before i -> on_track c (Nat.pred i) (Nat.pred i) ->
  exists ms out, demo_imus f1 (map tick_at (seq i (List.length draws))) draws = Ok ms /\ demo_angles fuel c ms = Ok out /\
    List.length out = List.length draws /\
    forall j o, nth_error out j = Some o -> fst o = stamp (i + j) /\
      ((100 <= i + j)%nat -> exists roll pitch yaw, snd o = (x2 roll, x2 pitch, x2 yaw) /\
        Rabs (pitch - swing_angle (i + j)) < degree /\ Rabs roll < degree).
Proof.
  intros Hf. induction draws as [|[na ng] draws IH]; intros i c HD HL HG HT.
  { exists [], []. split; [reflexivity|]. split; [reflexivity|]. split; [reflexivity|]. intros [|j] o H; discriminate H. }
  destruct (Forall_inv HD) as (a & b & d & p & q & r & Ha & Hg & A1 & A2 & A3 & A4 & A5 & A6). cbn [fst snd] in Ha, Hg.
  cbn [List.length] in HL. cbn [List.length seq map demo_imus]. rewrite (@imu_run i na ng a b d p q r) by (auto; lia). cbn [bind].
  destruct (@round_run fuel c i a b d p q r) as (c' & R1 & R2 & R3); auto; [lia|].
  destruct (IH (S i) c' (Forall_inv_tail HD)) as (ms & out & E1 & E2 & E3 & E4); [lia|exact R2|exact R3|].
  rewrite E1. cbn [bind]. exists (imu_at i a b d p q r :: ms), ((stamp i, fst (fused_orientation c')) :: out).
  split; [reflexivity|]. split.
  { cbn [demo_angles]. cbn [round map snd sacf_run] in R1.
    destruct (sacf_update fuel sacf_gains c (im_acc (imu_at i a b d p q r))) as [c1| | |]; try discriminate R1. cbn [bind] in R1 |- *.
    destruct (sacf_update fuel sacf_gains c1 (im_gyro (imu_at i a b d p q r))) as [c2| | |]; try discriminate R1. cbn [bind] in R1 |- *.
    destruct (sacf_update fuel sacf_gains c2 (im_magn (imu_at i a b d p q r))) as [c3| | |]; try discriminate R1. cbn [bind] in R1 |- *.
    injection R1 as ->. rewrite E2. reflexivity. }
  split; [cbn [List.length]; rewrite E3; reflexivity|]. intros [|j] o H.
  - injection H as <-. rewrite Nat.add_0_r. split; [reflexivity|]. intros H. exact (track_angles H R3).
  - cbn [nth_error] in H. replace (i + S j)%nat with (S i + j)%nat by lia. exact (E4 j o H).
Qed.
