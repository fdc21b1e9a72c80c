(** Proofs about the tilt error of the complementary filter (C99). *)
From Coq Require Import Reals Lra Lia Psatz.
From Verif Require Import Lib NumReal LibR Sensors SaCf Spec_Sensors Spec_SaCf Spec_Tilt Pf_Angle Pf_Cf Pf_SaCf.
Set Implicit Arguments.
Local Open Scope list_scope.
Local Open Scope R_scope.
Local Notation x2 x := (Some x : RX).

(** * Angles *)
Lemma lipschitz (f f' : R -> R) : (forall x, derivable_pt_lim f x (f' x)) -> (forall x, f' x <= 1) ->
  forall x y, x <= y -> f y - f x <= y - x.
Proof.
  intros D B x y [L| ->]; [|lra].
  destruct (@MVT_cor2 f f' x y L (fun c _ => D c)) as (c & E & _). specialize (B c). nra.
Qed.
Lemma sin_lip x y : x <= y -> sin y - sin x <= y - x.
Proof. apply (@lipschitz sin cos); [apply derivable_pt_lim_sin|]. intros c. apply COS_bound. Qed.
Lemma atan_lip x y : x <= y -> atan y - atan x <= y - x.
Proof.
  apply (@lipschitz atan (fun x => / (1 + Rsqr x))).
  - intros c. rewrite Rsqr_pow2. apply (derivable_pt_lim_atan c).
  - intros c. rewrite <- Rinv_1. apply Rinv_le_contravar; [lra|]. pose proof (Rle_0_sqr c). lra.
Qed.
Lemma atan_le x : 0 <= x -> 0 <= atan x <= x.
Proof.
  intros H. pose proof (@atan_lip 0 x H) as L. rewrite atan_0 in L. split; [|lra].
  destruct H as [H| <-]; [|rewrite atan_0; lra]. pose proof (atan_increasing 0 x H) as I. rewrite atan_0 in I. lra.
Qed.
Lemma atan_mono x y : x <= y -> atan x <= atan y.
Proof. intros [H| ->]; [left; apply atan_increasing, H|lra]. Qed.
Lemma angle_of c E : -1 <= c <= 1 -> 0 <= E <= PI -> cos E <= c -> exists p, 0 <= p <= E /\ c = cos p.
Proof.
  intros Hc HE H. exists (acos c). pose proof (acos_bound c) as B. rewrite cos_acos by lra. split; [|reflexivity]. split; [lra|].
  destruct (Rle_or_lt (acos c) E) as [L|L]; [exact L|]. exfalso.
  pose proof (cos_decreasing_1 E (acos c)) as D. rewrite cos_acos in D by lra. specialize (D ltac:(lra) ltac:(lra) ltac:(lra) ltac:(lra) L). lra.
Qed.
Lemma cos_mono x y : 0 <= x -> x <= y -> y <= PI -> cos y <= cos x.
Proof. intros H1 [L| ->] H3; [|lra]. left. apply cos_decreasing_1; lra. Qed.
Lemma cos_double_atan s : cos (2 * atan s) = (1 - s * s) / (1 + s * s).
Proof.
  assert (P : 0 < 1 + s * s) by nra.
  rewrite cos_2a, cos_atan', sin_atan'. pose proof (sqrt_sqrt (1 + s * s) ltac:(lra)) as Q. pose proof (sqrt_lt_R0 _ P) as S.
  set (n := sqrt (1 + s * s)) in *.
  replace (/ n * / n - s / n * (s / n)) with ((1 - s * s) / (n * n)) by (field; lra). rewrite Q. reflexivity.
Qed.
Lemma sin_double_atan s : sin (2 * atan s) = 2 * s / (1 + s * s).
Proof.
  assert (P : 0 < 1 + s * s) by nra.
  rewrite sin_2a, cos_atan', sin_atan'. pose proof (sqrt_sqrt (1 + s * s) ltac:(lra)) as Q. pose proof (sqrt_lt_R0 _ P) as S.
  set (n := sqrt (1 + s * s)) in *.
  replace (2 * (s / n) * / n) with (2 * s / (n * n)) by (field; lra). rewrite Q. reflexivity.
Qed.

(** * Unit vectors *)
Lemma vertical_unit w x y z : w * w + x * x + y * y + z * z = 1 -> unit3 (vertical w x y z).
Proof.
  intros H. unfold unit3, vertical, dot3. assert (G3 : r33 w x y z = h33 w x y z) by (unfold r33, h33; lra).
  rewrite G3. change (r31 w x y z) with (h31 w x y z). change (r32 w x y z) with (h32 w x y z).
  rewrite h3_unit, H. ring.
Qed.
Lemma direction_unit a b d : / IZR (2 ^ 52) < norm3 a b d -> unit3 (direction a b d).
Proof.
  intros H. destruct (v_normalized_real a b d) as (a' & b' & d' & _ & HV). destruct (HV H) as (-> & -> & -> & E). exact E.
Qed.
Lemma dot_bound u v : unit3 u -> unit3 v -> -1 <= dot3 u v <= 1.
Proof.
  destruct u as [[u1 u2] u3], v as [[v1 v2] v3]. unfold unit3, dot3. intros H1 H2.
  pose proof (Rle_0_sqr (u1 - v1)). pose proof (Rle_0_sqr (u2 - v2)). pose proof (Rle_0_sqr (u3 - v3)).
  pose proof (Rle_0_sqr (u1 + v1)). pose proof (Rle_0_sqr (u2 + v2)). pose proof (Rle_0_sqr (u3 + v3)). unfold Rsqr in *. lra.
Qed.
Lemma dot_one u v : unit3 u -> unit3 v -> 1 <= dot3 u v -> v = u.
Proof.
  destruct u as [[u1 u2] u3], v as [[v1 v2] v3]. unfold unit3, dot3. intros H1 H2 H.
  pose proof (Rle_0_sqr (u1 - v1)) as A. pose proof (Rle_0_sqr (u2 - v2)) as B. pose proof (Rle_0_sqr (u3 - v3)) as C.
  assert (A0 : Rsqr (u1 - v1) = 0) by (unfold Rsqr in *; lra). assert (B0 : Rsqr (u2 - v2) = 0) by (unfold Rsqr in *; lra).
  assert (C0 : Rsqr (u3 - v3) = 0) by (unfold Rsqr in *; lra).
  apply Rsqr_0_uniq in A0, B0, C0. f_equal; [f_equal|]; lra.
Qed.
Lemma gram u v w : unit3 u -> unit3 v -> unit3 w ->
  let a := dot3 u v in let b := dot3 v w in let c := dot3 u w in (c - a * b) * (c - a * b) <= (1 - a * a) * (1 - b * b).
Proof.
  destruct u as [[u1 u2] u3], v as [[v1 v2] v3], w as [[w1 w2] w3]. unfold unit3, dot3. intros H1 H2 H3. cbv zeta.
  set (U := u1 * u1 + u2 * u2 + u3 * u3) in *. set (V := v1 * v1 + v2 * v2 + v3 * v3) in *. set (W := w1 * w1 + w2 * w2 + w3 * w3) in *.
  set (D := u1 * (v2 * w3 - v3 * w2) - u2 * (v1 * w3 - v3 * w1) + u3 * (v1 * w2 - v2 * w1)).
  set (a := u1 * v1 + u2 * v2 + u3 * v3). set (b := v1 * w1 + v2 * w2 + v3 * w3). set (c := u1 * w1 + u2 * w2 + u3 * w3).
  assert (E : D * D = U * V * W + 2 * a * b * c - U * b * b - V * c * c - W * a * a) by (subst D U V W a b c; ring).
  rewrite H1, H2, H3 in E. pose proof (Rle_0_sqr D) as P. unfold Rsqr in P. nra.
Qed.
(** angles add up at most *)
Lemma triangle u v w a b : unit3 u -> unit3 v -> unit3 w -> 0 <= a -> 0 <= b -> a + b <= PI ->
  cos a <= dot3 u v -> cos b <= dot3 v w -> cos (a + b) <= dot3 u w.
Proof.
  intros Hu Hv Hw Ha Hb Hab H1 H2.
  pose proof (gram Hu Hv Hw) as G. cbv zeta in G. pose proof (dot_bound Hu Hv) as B1. pose proof (dot_bound Hv Hw) as B2.
  destruct (@angle_of _ a B1 ltac:(lra) H1) as (p & Hp & E1). destruct (@angle_of _ b B2 ltac:(lra) H2) as (q & Hq & E2).
  rewrite E1, E2 in G. apply Rle_trans with (cos (p + q)).
  - apply cos_mono; lra.
  - rewrite cos_plus. set (c := dot3 u w) in *.
    assert (S1 : 0 <= sin p) by (apply sin_ge_0; lra). assert (S2 : 0 <= sin q) by (apply sin_ge_0; lra).
    assert (Q1 : 1 - cos p * cos p = sin p * sin p) by (pose proof (sin2_cos2 p); unfold Rsqr in *; lra).
    assert (Q2 : 1 - cos q * cos q = sin q * sin q) by (pose proof (sin2_cos2 q); unfold Rsqr in *; lra).
    rewrite Q1, Q2 in G. set (d := c - cos p * cos q) in *. set (s := sin p * sin q).
    assert (0 <= s) by (subst s; apply Rmult_le_pos; assumption).
    assert (Hd : - s <= d); [|subst d; lra].
    destruct (Rle_or_lt (- s) d) as [L|L]; [exact L|exfalso].
    assert (s * s < d * d) by nra. subst s. nra.
Qed.

(** * One sample *)
Lemma push q w x y z h1 h2 h3 : unit_quat q w x y z ->
  let n := 1 + (h1 * h1 + h2 * h2 + h3 * h3) in
  exists w' x' y' z', unit_quat (update_quaternion q (mkV (x2 (2 * h1)) (x2 (2 * h2)) (x2 (2 * h3)))) w' x' y' z' /\
  let '(g1, g2, g3) := vertical w x y z in
  let s := 1 - (h1 * h1 + h2 * h2 + h3 * h3) in let d := 2 * (h1 * g1 + h2 * g2 + h3 * g3) in
  vertical w' x' y' z' = ((s * g1 + d * h1 + 2 * (g2 * h3 - g3 * h2)) / n, (s * g2 + d * h2 + 2 * (g3 * h1 - g1 * h3)) / n,
    (s * g3 + d * h3 + 2 * (g1 * h2 - g2 * h1)) / n).
Proof.
  intros [-> HU]. cbv zeta. pose proof (@update_quaternion_real w x y z (2 * h1) (2 * h2) (2 * h3) HU) as U.
  pose proof (h3_grow w x y z h1 h2 h3) as HH.
  destruct (grow w x y z (2 * h1) (2 * h2) (2 * h3)) as [[[W X] Y] Z]. cbv zeta beta iota in U, HH.
  destruct U as (Hn1 & Hnn & Hs & EU). rewrite EU. set (n := sqrt _) in *. destruct HH as (E1 & E2 & E3).
  assert (Hn0 : n <> 0) by lra. destruct (@h3_scaled W X Y Z n Hn0 Hs) as (S1 & S2 & S3).
  exists (W / n), (X / n), (Y / n), (Z / n). split.
  { split; [reflexivity|].
    replace (W / n * (W / n) + X / n * (X / n) + Y / n * (Y / n) + Z / n * (Z / n))
      with ((W * W + X * X + Y * Y + Z * Z) / (n * n)) by (field; lra). rewrite Hs. field. lra. }
  unfold vertical. rewrite S1, S2, S3, E1, E2, E3.
  assert (G3 : r33 w x y z = h33 w x y z) by (unfold r33, h33; lra). rewrite G3.
  replace (n * n) with (1 + (h1 * h1 + h2 * h2 + h3 * h3)) by (rewrite Hnn; field).
  reflexivity.
Qed.

(** an accelerometer sample mixes the old vertical and the measured one *)
Lemma acc_mix q w x y z a b d ka : unit_quat q w x y z -> / IZR (2 ^ 52) < norm3 a b d ->
  let acc := direction a b d in let D := dot3 acc (vertical w x y z) in let t := ka / 2 in
  exists w' x' y' z', unit_quat (update_quaternion q (v_scale (x2 ka) (acc_error q (mkV (x2 a) (x2 b) (x2 d))))) w' x' y' z' /\
  forall u, dot3 u (vertical w' x' y' z') =
    ((1 - t * t * (1 - D * D) - 2 * t * D) * dot3 u (vertical w x y z) + 2 * t * dot3 u acc) / (1 + t * t * (1 - D * D)).
Proof.
  intros [Hq HU] Hn. cbv zeta.
  destruct (v_normalized_real a b d) as (a' & b' & d' & EV & HV). destruct (HV Hn) as (A1 & A2 & A3 & A4).
  assert (ED : direction a b d = (a', b', d')) by (unfold direction; rewrite A1, A2, A3; reflexivity). rewrite ED.
  pose proof (@vertical_unit w x y z HU) as HG.
  pose proof (@acc_error_real w x y z a b d HU a' b' d' EV) as EE. cbv zeta in EE. unfold real_quat in Hq. rewrite <- Hq in EE. rewrite EE.
  unfold v_scale. cbn [vx vy vz]. rewrite !rx_mul. set (t := ka / 2).
  unfold unit3, vertical, dot3 in HG. set (g1 := r31 w x y z) in *. set (g2 := r32 w x y z) in *. set (g3 := r33 w x y z) in *.
  set (h1 := t * (b' * g3 - d' * g2)). set (h2 := t * (d' * g1 - a' * g3)). set (h3 := t * (a' * g2 - b' * g1)).
  replace ((b' * g3 - d' * g2) * ka) with (2 * h1) by (subst h1 t; field).
  replace ((d' * g1 - a' * g3) * ka) with (2 * h2) by (subst h2 t; field).
  replace ((a' * g2 - b' * g1) * ka) with (2 * h3) by (subst h3 t; field).
  destruct (@push q w x y z h1 h2 h3 (conj Hq HU)) as (w' & x' & y' & z' & U & EV').
  unfold vertical at 1 in EV'. fold g1 g2 g3 in EV'. cbv zeta beta iota in EV'.
  change (vertical w x y z) with (g1, g2, g3).
  exists w', x', y', z'. split; [exact U|]. intros [[u1 u2] u3]. rewrite !EV'. unfold dot3.
  destruct (@turn_dot a' b' d' g1 g2 g3 t A4 HG) as [T1 _]. cbv zeta in T1. fold h1 h2 h3 in T1.
  set (D := a' * g1 + b' * g2 + d' * g3) in *. rewrite T1. set (N := 1 + t * t * (1 - D * D)) in *.
  assert (HN : 1 <= N).
  { subst N. rewrite <- T1. pose proof (Rle_0_sqr h1). pose proof (Rle_0_sqr h2). pose proof (Rle_0_sqr h3). unfold Rsqr in *. lra. }
  assert (H0 : h1 * g1 + h2 * g2 + h3 * g3 = 0) by (subst h1 h2 h3; ring). rewrite H0.
  assert (X1 : g2 * h3 - g3 * h2 = t * (a' - D * g1)).
  { transitivity (t * (a' * (g1 * g1 + g2 * g2 + g3 * g3) - D * g1)); [subst h2 h3 D; ring|rewrite HG; ring]. }
  assert (X2 : g3 * h1 - g1 * h3 = t * (b' - D * g2)).
  { transitivity (t * (b' * (g1 * g1 + g2 * g2 + g3 * g3) - D * g2)); [subst h1 h3 D; ring|rewrite HG; ring]. }
  assert (X3 : g1 * h2 - g2 * h1 = t * (d' - D * g3)).
  { transitivity (t * (d' * (g1 * g1 + g2 * g2 + g3 * g3) - D * g3)); [subst h1 h2 D; ring|rewrite HG; ring]. }
  rewrite X1, X2, X3. field. lra.
Qed.

(** a gyroscope sample turns the vertical by at most its own angle *)
Lemma gyro_angle q w x y z a b d dt B : unit_quat q w x y z -> norm3 a b d * Rabs dt <= B ->
  exists w' x' y' z', unit_quat (update_quaternion q (mkV (x2 (a * dt)) (x2 (b * dt)) (x2 (d * dt)))) w' x' y' z' /\
    cos (2 * atan (B / 2)) <= dot3 (vertical w x y z) (vertical w' x' y' z').
Proof.
  intros HU HB. set (h1 := a * dt / 2). set (h2 := b * dt / 2). set (h3 := d * dt / 2).
  replace (a * dt) with (2 * h1) by (subst h1; field). replace (b * dt) with (2 * h2) by (subst h2; field). replace (d * dt) with (2 * h3) by (subst h3; field).
  destruct (@push q w x y z h1 h2 h3 HU) as (w' & x' & y' & z' & U & EV). exists w', x', y', z'. split; [exact U|].
  destruct HU as [_ HU]. pose proof (@vertical_unit w x y z HU) as HG. destruct (vertical w x y z) as [[g1 g2] g3]. cbv zeta beta iota in EV. rewrite EV.
  unfold unit3, dot3 in *. rewrite cos_double_atan.
  set (S := h1 * h1 + h2 * h2 + h3 * h3).
  assert (P0 : 0 <= S) by (subst S; pose proof (Rle_0_sqr h1); pose proof (Rle_0_sqr h2); pose proof (Rle_0_sqr h3); unfold Rsqr in *; lra).
  assert (HS : S <= B / 2 * (B / 2)).
  { assert (Q : norm3 a b d * norm3 a b d = a * a + b * b + d * d).
    { apply sqrt_sqrt. pose proof (Rle_0_sqr a). pose proof (Rle_0_sqr b). pose proof (Rle_0_sqr d). unfold Rsqr in *. lra. }
    assert (ES : S = norm3 a b d * Rabs dt / 2 * (norm3 a b d * Rabs dt / 2)).
    { transitivity (norm3 a b d * norm3 a b d * (Rabs dt * Rabs dt) / 4); [|field]. rewrite Q.
      replace (Rabs dt * Rabs dt) with (dt * dt) by (rewrite <- Rabs_mult; symmetry; apply Rabs_right; nra). subst S h1 h2 h3. field. }
    rewrite ES. assert (0 <= norm3 a b d * Rabs dt) by (apply Rmult_le_pos; [apply norm3_pos|apply Rabs_pos]).
    apply Rmult_le_compat; lra. }
  set (d0 := h1 * g1 + h2 * g2 + h3 * g3).
  match goal with |- _ <= ?e => replace e with (((1 - S) * (g1 * g1 + g2 * g2 + g3 * g3) + 2 * (d0 * d0)) / (1 + S)) by (unfold d0; field; lra) end.
  rewrite HG, Rmult_1_r. set (s := B / 2 * (B / 2)) in *.
  apply Rle_trans with ((1 - S) / (1 + S)).
  - apply (Rmult_le_reg_r (1 + s)); [lra|]. unfold Rdiv at 1. rewrite Rmult_assoc, Rinv_l by lra.
    apply (Rmult_le_reg_r (1 + S)); [lra|]. replace ((1 - S) / (1 + S) * (1 + s) * (1 + S)) with ((1 - S) * (1 + s)) by (field; lra). lra.
  - unfold Rdiv. apply Rmult_le_compat_r; [left; apply Rinv_0_lt_compat; lra|]. pose proof (Rle_0_sqr d0). unfold Rsqr in *. lra.
Qed.

(** * Histories *)
(** what an accelerometer sample must achieve: from [E] down to [G] *)
Definition corrects (ka : R) (u : R * R * R) (A E G : R) : Prop := forall g a, unit3 g -> unit3 a ->
  cos A <= dot3 u a -> cos E <= dot3 u g ->
  let D := dot3 a g in let t := ka / 2 in
  cos G <= ((1 - t * t * (1 - D * D) - 2 * t * D) * dot3 u g + 2 * t * dot3 u a) / (1 + t * t * (1 - D * D)).

Lemma still_run fuel (k : cfconf RX) u ka ki A B E ms : (3 <= fuel)%nat -> k_acc k = x2 ka -> k_int k = x2 ki -> ki <= 1 / 100000000 ->
  unit3 u -> 0 <= 2 * atan (B / 2) <= E -> E <= PI -> corrects ka u A E (E - 2 * atan (B / 2)) ->
  forall (c : cfilter RX) w x y z fresh, unit_quat (cf_q c) w x y z -> cf_interr c = v0 -> still_samples u A B (cf_gyro c) fresh ms ->
  cos E <= dot3 u (vertical w x y z) -> (fresh = true -> cos (E - 2 * atan (B / 2)) <= dot3 u (vertical w x y z)) ->
  exists c' w' x' y' z', cf_run fuel k c ms = Ok c' /\ unit_quat (cf_q c') w' x' y' z' /\ cos E <= dot3 u (vertical w' x' y' z').
Proof.
  intros Hf Hka Hki Ki Hu Hga HE HC. set (ga := 2 * atan (B / 2)) in *.
  assert (LE : cos E <= cos (E - ga)) by (apply cos_mono; lra).
  induction ms as [|m t IH]; intros c w x y z fresh HU HI HS H0 H1.
  { exists c, w, x, y, z. auto. }
  cbn [still_samples] in HS. cbn [cf_run].
  assert (Other : forall c1, cf_update fuel k c m = Ok c1 -> cf_q c1 = cf_q c -> cf_interr c1 = v0 -> still_samples u A B (cf_gyro c1) fresh t ->
    exists c' w' x' y' z', (c2 <- cf_update fuel k c m ;; cf_run fuel k c2 t) = Ok c' /\ unit_quat (cf_q c') w' x' y' z' /\ cos E <= dot3 u (vertical w' x' y' z')).
  { intros c1 E1 Eq Ei Es. rewrite E1. cbn [bind]. rewrite <- Eq in HU. exact (IH c1 w x y z fresh HU Ei Es H0 H1). }
  destruct (s_type (st_data m)) eqn:Et.
  - (* accelerometer *)
    clear Other. destruct HS as [(a & b & d & Hv & Hn & HA) HS]. unfold cf_update. rewrite Et. cbn [bind].
    match goal with |- context [cf_run fuel k ?cc t] => set (c1 := cc) end.
    destruct (@acc_mix (cf_q c) w x y z a b d ka HU Hn) as (w' & x' & y' & z' & U & EV). cbv zeta in EV.
    apply (IH c1 w' x' y' z' true).
    + subst c1. cbn [cf_q]. unfold real_vec in Hv. rewrite Hv, Hka. exact U.
    + subst c1. cbn [cf_interr]. rewrite HI. eapply int_error_none; eauto.
    + exact HS.
    + rewrite EV. eapply Rle_trans; [exact LE|]. apply HC; auto using direction_unit. apply vertical_unit. exact (proj2 HU).
    + intros _. rewrite EV. apply HC; auto using direction_unit. apply vertical_unit. exact (proj2 HU).
  - (* magnetometer *)
    destruct HS as (Hm & Hg & HS).
    destruct (@azimuth_ok fuel (cf_q c) (s_val (st_data m)) Hf) as (Az & EA & _); [do 4 eexists; exact HU|exact Hm|].
    eapply Other; [unfold cf_update; rewrite Et, (proj2 (Z.eqb_neq _ _) Hg), EA; cbn [bind]; reflexivity|reflexivity|exact HI|exact HS].
  - (* gyroscope *)
    destruct HS as ((a & b & d & Hv & HB) & Hfr & HS).
    unfold cf_update. rewrite Et. cbn [bind].
    match goal with |- context [cf_run fuel k ?cc t] => set (c1 := cc) end.
    set (dt := seconds (cf_gyro c) m) in *.
    destruct (@gyro_angle (cf_q c) w x y z a b d dt B HU HB) as (w' & x' & y' & z' & U & EV).
    assert (EQ : cf_q c1 = update_quaternion (cf_q c) (mkV (x2 (a * dt)) (x2 (b * dt)) (x2 (d * dt)))).
    { subst c1. cbn [cf_q]. unfold real_vec in Hv. rewrite Hv, HI. unfold v_add, v_scale, v0. cbn [vx vy vz].
      rewrite !rx_ofZ, rx_div by lra. rewrite rx_f0. repeat (rewrite rx_mul || rewrite rx_add). rewrite !Rmult_0_l, !Rplus_0_r.
      fold (seconds (cf_gyro c) m). fold dt. reflexivity. }
    destruct (Z.eqb_spec (cf_gyro c) (-1)) as [E1|E1].
    + (* the clock starts *)
      assert (D0 : dt = 0) by (subst dt; unfold seconds; rewrite E1; cbn [Z.eqb]; change (-1 =? -1)%Z with true; cbv iota; rewrite Z.sub_diag; lra).
      rewrite D0, !Rmult_0_r in EQ. rewrite (update_zero HU) in EQ. rewrite andb_true_r in HS.
      apply (IH c1 w x y z fresh); [rewrite EQ; exact HU|exact HI|exact HS|exact H0|exact H1].
    + rewrite andb_false_r in HS. destruct Hfr as [Hfr|Hfr]; [|contradiction]. specialize (H1 Hfr).
      apply (IH c1 w' x' y' z' false); [rewrite EQ; exact U|exact HI|exact HS| |discriminate].
      replace E with ((E - ga) + ga) by ring.
      apply (@triangle u (vertical w x y z) (vertical w' x' y' z') (E - ga) ga);
        [exact Hu|apply vertical_unit; exact (proj2 HU)|apply vertical_unit; exact (proj2 U)|lra|lra|lra|exact H1|exact EV].
  - eapply Other; [unfold cf_update; rewrite Et; reflexivity|reflexivity|exact HI|exact HS].
  - eapply Other; [unfold cf_update; rewrite Et; reflexivity|reflexivity|exact HI|exact HS].
  - eapply Other; [unfold cf_update; rewrite Et; reflexivity|reflexivity|exact HI|exact HS].
Qed.

(** exact accelerometer: turning back by 2 atan (ka sin phi / 2) is monotone *)
Lemma corrects_exact ka u B E : unit3 u -> 0 < ka <= 1 -> 0 <= E <= PI -> 0 <= B <= ka * sin E ->
  corrects ka u 0 E (E - 2 * atan (B / 2)).
Proof.
  intros Hu Hk HE HB g a Hg Ha HA H0. rewrite cos_0 in HA. rewrite (dot_one Hu Ha HA). cbv zeta.
  pose proof (dot_bound Hu Hg) as HB1. destruct (@angle_of _ E HB1 HE H0) as (p & Hp & ->).
  assert (Huu : dot3 u u = 1) by exact Hu. rewrite Huu.
  set (t := ka / 2). assert (Ht : 0 < t <= 1 / 2) by (subst t; lra).
  assert (Q : 1 - cos p * cos p = sin p * sin p) by (pose proof (sin2_cos2 p); unfold Rsqr in *; lra). rewrite Q.
  assert (SP : 0 <= sin p) by (apply sin_ge_0; lra). set (s := t * sin p).
  assert (S0 : 0 <= s) by (subst s; apply Rmult_le_pos; lra).
  match goal with |- _ <= ?e => replace e with (cos (p - 2 * atan s)) end.
  2:{ rewrite cos_minus, cos_double_atan, sin_double_atan. replace (t * t * (sin p * sin p)) with (s * s) by (subst s; ring).
      assert (E2 : (1 - s * s - 2 * t * cos p) * cos p + 2 * t * 1 = (1 - s * s) * cos p + 2 * s * sin p).
      { transitivity ((1 - s * s) * cos p + 2 * t * (1 - cos p * cos p)); [ring|rewrite Q; subst s; ring]. }
      rewrite E2. field. nra. }
  assert (L1 : 2 * atan (t * sin E) - 2 * atan s <= E - p).
  { destruct (Rle_or_lt (sin p) (sin E)) as [L|L].
    - assert (L2 : s <= t * sin E) by (subst s; apply Rmult_le_compat_l; lra).
      pose proof (@atan_lip _ _ L2) as A1. pose proof (@sin_lip p E (proj2 Hp)) as A2. subst s. nra.
    - assert (L2 : t * sin E <= s) by (subst s; apply Rmult_le_compat_l; lra). pose proof (atan_mono L2). lra. }
  assert (L3 : atan (B / 2) <= atan (t * sin E)) by (apply atan_mono; subst t; lra).
  apply cos_mono; [|lra|].
  - pose proof (@atan_le s S0) as A1. pose proof (@sin_lip 0 p (proj1 Hp)) as A2. rewrite sin_0 in A2. subst s. nra.
  - pose proof (@atan_le (B / 2) ltac:(lra)). lra.
Qed.

(** accelerometer with noise *)
Lemma corrects_noisy ka u A E G : 0 < ka <= 1 -> 0 <= cos E -> cos E <= cos A ->
  cos G <= cos E + ka / (1 + ka * ka / 4) * (cos A - cos E) -> corrects ka u A E G.
Proof.
  intros Hk HE HA HG g a Hg Ha H1 H0. cbv zeta. set (t := ka / 2). assert (Ht : 0 < t <= 1 / 2) by (subst t; lra).
  replace ka with (2 * t) in HG by (subst t; field). replace (2 * t * (2 * t) / 4) with (t * t) in HG by field.
  pose proof (dot_bound Ha Hg) as HD. set (D := dot3 a g) in *. set (c := dot3 u g) in *. set (e := dot3 u a) in *.
  eapply Rle_trans; [exact HG|]. clear HG. clearbody D c e. set (CE := cos E) in *. set (CA := cos A) in *. clearbody CE CA.
  assert (Q : 0 <= 1 - D * D) by nra. set (N := 1 + t * t * (1 - D * D)). assert (HN : 1 <= N <= 1 + t * t) by (subst N; nra).
  assert (AL : 0 <= 1 - t * t * (1 - D * D) - 2 * t * D).
  { replace (1 - t * t * (1 - D * D) - 2 * t * D) with ((1 - t * D - t) * (1 - t * D + t)) by ring. apply Rmult_le_pos; nra. }
  apply Rle_trans with (((1 - t * t * (1 - D * D) - 2 * t * D) * CE + 2 * t * CA) / N).
  2:{ unfold Rdiv. apply Rmult_le_compat_r; [left; apply Rinv_0_lt_compat; lra|]. nra. }
  assert (EX : ((1 - t * t * (1 - D * D) - 2 * t * D) * CE + 2 * t * CA) / N =
    CE + 2 * t * (1 - D) * (1 - t * (1 + D)) * CE / N + 2 * t / N * (CA - CE)) by (unfold N; field; fold N; lra).
  rewrite EX. clear EX.
  assert (P1 : 0 <= 2 * t * (1 - D) * (1 - t * (1 + D)) * CE / N).
  { apply Rmult_le_pos; [|left; apply Rinv_0_lt_compat; lra]. apply Rmult_le_pos; [|lra]. apply Rmult_le_pos; nra. }
  assert (P2 : 2 * t / (1 + t * t) <= 2 * t / N).
  { unfold Rdiv. apply Rmult_le_compat_l; [lra|]. apply Rinv_le_contravar; lra. }
  assert (P3 : 2 * t / (1 + t * t) * (CA - CE) <= 2 * t / N * (CA - CE)) by (apply Rmult_le_compat_r; lra). lra.
Qed.

(** * Turns about the second axis *)
Definition pitch_quat (h : R) : quat RX := mkQ (x2 (cos h)) (x2 0) (x2 (sin h)) (x2 0).
Lemma pitch_unit h : unit_quat (pitch_quat h) (cos h) 0 (sin h) 0.
Proof. split; [reflexivity|]. pose proof (sin2_cos2 h). unfold Rsqr in *. lra. Qed.
Lemma pitch_vertical h : vertical (cos h) 0 (sin h) 0 = (- sin (2 * h), 0, cos (2 * h)).
Proof. unfold vertical, r31, r32, r33. rewrite sin_2a, cos_2a_sin. f_equal; [f_equal|]; ring. Qed.
Lemma pitch_turn h a : update_quaternion (pitch_quat h) (mkV (x2 0) (x2 a) (x2 0)) = pitch_quat (h + atan (a / 2)).
Proof.
  assert (HU : cos h * cos h + 0 * 0 + sin h * sin h + 0 * 0 = 1) by (pose proof (sin2_cos2 h); unfold Rsqr in *; lra).
  pose proof (@update_quaternion_real (cos h) 0 (sin h) 0 0 a 0 HU) as U. unfold grow in U. cbv zeta beta iota in U.
  destruct U as (Hn & Hnn & _ & E). unfold pitch_quat at 1. rewrite E. unfold pitch_quat.
  rewrite cos_plus, sin_plus, cos_atan', sin_atan'.
  replace (1 + a / 2 * (a / 2)) with (1 + (0 * 0 + a * a + 0 * 0) / 4) by field.
  set (n := sqrt _) in *. f_equal; f_equal; field; lra.
Qed.
Lemma pitch_acc h g ka : / IZR (2 ^ 52) < g ->
  update_quaternion (pitch_quat h) (v_scale (x2 ka) (acc_error (pitch_quat h) (mkV (x2 0) (x2 0) (x2 g)))) =
  pitch_quat (h - atan (ka * sin (2 * h) / 2)).
Proof.
  intros Hg. assert (G0 : 0 < g) by (pose proof (Rinv_0_lt_compat (IZR (2 ^ 52)) ltac:(lra)); lra).
  assert (N : norm3 0 0 g = g) by (unfold norm3; replace (0 * 0 + 0 * 0 + g * g) with (Rsqr g) by (unfold Rsqr; ring); apply sqrt_Rsqr; lra).
  destruct (v_normalized_real 0 0 g) as (a' & b' & d' & EV & HV). rewrite N in HV. destruct (HV Hg) as (A1 & A2 & A3 & _).
  replace (0 / g) with 0 in A1, A2 by (field; lra). replace (g / g) with 1 in A3 by (field; lra). subst a' b' d'.
  pose proof (@acc_error_real (cos h) 0 (sin h) 0 0 0 g (proj2 (pitch_unit h)) _ _ _ EV) as EE. cbv zeta in EE.
  fold (pitch_quat h) in EE. rewrite EE. unfold v_scale. cbn [vx vy vz]. rewrite !rx_mul.
  replace (atan (ka * sin (2 * h) / 2)) with (- atan ((1 * r31 (cos h) 0 (sin h) 0 - 0 * r33 (cos h) 0 (sin h) 0) * ka / 2)).
  - replace (h - - atan ((1 * r31 (cos h) 0 (sin h) 0 - 0 * r33 (cos h) 0 (sin h) 0) * ka / 2)) with
      (h + atan ((1 * r31 (cos h) 0 (sin h) 0 - 0 * r33 (cos h) 0 (sin h) 0) * ka / 2)) by ring.
    rewrite <- pitch_turn. f_equal. unfold r32. f_equal; f_equal; ring.
  - rewrite <- atan_opp. f_equal. unfold r31. rewrite sin_2a. field.
Qed.

Lemma iter_r {X} (f : X -> X) n : forall x, Nat.iter (S n) f x = Nat.iter n f (f x).
Proof. induction n as [|n IH]; intros x; [reflexivity|]. change (f (Nat.iter (S n) f x) = f (Nat.iter n f (f x))). rewrite IH. reflexivity. Qed.
(** half the tilt after an accelerometer and a gyroscope sample *)
Definition half_step (ka b h : R) : R := h - atan (ka * sin (2 * h) / 2) + atan (b / 2).
Lemma biased_run fuel (k : cfconf RX) ka ki g rate d n : k_acc k = x2 ka -> k_int k = x2 ki -> ki <= 1 / 100000000 ->
  / IZR (2 ^ 52) < g -> (0 < d)%Z -> forall (c : cfilter RX) h, (0 <= cf_gyro c)%Z -> cf_interr c = v0 -> cf_q c = pitch_quat h ->
  exists c', cf_run fuel k c (biased g rate d (cf_gyro c) n) = Ok c' /\
    cf_q c' = pitch_quat (Nat.iter n (half_step ka (rate * (IZR d / 1000))) h).
Proof.
  intros Hka Hki Ki Hg Hd. induction n as [|n IH]; intros c h Hc HI HQ.
  { exists c. auto. }
  cbn [biased cf_run]. unfold cf_update at 1. cbn [s_type st_data bind]. unfold cf_update. cbn [s_type st_data bind cf_gyro cf_interr cf_q s_val st_ts].
  match goal with |- context [cf_run fuel k ?cc _] => set (c1 := cc) end.
  assert (E1 : (cf_gyro c =? -1)%Z = false) by (apply Z.eqb_neq; lia).
  destruct (IH c1 (half_step ka (rate * (IZR d / 1000)) h)) as (c' & R1 & R2).
  - subst c1. cbn [cf_gyro]. lia.
  - subst c1. cbn [cf_interr]. rewrite HI. eapply int_error_none; eauto.
  - subst c1. cbn [cf_q]. rewrite E1, HQ, HI, Hka. rewrite (@pitch_acc h g ka Hg).
    rewrite (@int_error_none k ki _ Hki Ki). unfold v_add, v_scale, v0. cbn [vx vy vz].
    rewrite !rx_ofZ, rx_div by lra. rewrite rx_f0. repeat (rewrite rx_mul || rewrite rx_add). rewrite !Rmult_0_l, !Rplus_0_r.
    rewrite pitch_turn. unfold half_step. replace (cf_gyro c + d - cf_gyro c)%Z with d by lia. reflexivity.
  - exists c'. replace (cf_gyro c + d)%Z with (cf_gyro c1) by reflexivity. split; [exact R1|]. rewrite R2. f_equal. symmetry. apply iter_r.
Qed.

(** the bound of [corrects_exact] is attained *)
Lemma half_fixed ka E n : Nat.iter n (half_step ka (ka * sin E)) (E / 2) = E / 2.
Proof.
  induction n as [|n IH]; [reflexivity|].
  change (half_step ka (ka * sin E) (Nat.iter n (half_step ka (ka * sin E)) (E / 2)) = E / 2). rewrite IH. unfold half_step.
  replace (2 * (E / 2)) with E by field. ring.
Qed.
(** a larger turn per sample: the estimate comes to lie beyond the horizon *)
Lemma half_turns_over ka b : 0 <= ka < b -> exists n, cos (2 * Nat.iter n (half_step ka b) 0) <= 0.
Proof.
  intros H. set (h := fun n => Nat.iter n (half_step ka b) 0). set (dl := atan (b / 2) - atan (ka / 2)).
  assert (Hdl : 0 < dl) by (subst dl; assert (atan (ka / 2) < atan (b / 2)) by (apply atan_increasing; lra); lra).
  assert (HS : forall n, h (S n) = half_step ka b (h n)) by reflexivity.
  assert (Hup : forall x, x + dl <= half_step ka b x).
  { intros x. unfold half_step. assert (atan (ka * sin (2 * x) / 2) <= atan (ka / 2)); [|subst dl; lra].
    apply atan_mono. pose proof (SIN_bound (2 * x)). nra. }
  assert (Hge : forall n, INR n * dl <= h n).
  { induction n as [|n IH]; [cbn; lra|]. rewrite HS, S_INR. specialize (Hup (h n)). lra. }
  assert (HNe : exists N, PI / 4 / dl < INR N).
  { exists (Z.to_nat (up (PI / 4 / dl))). destruct (archimed (PI / 4 / dl)) as [U _].
    assert (0 < PI / 4 / dl) by (apply Rdiv_lt_0_compat; [pose proof PI_RGT_0; lra|exact Hdl]).
    assert (0 < up (PI / 4 / dl))%Z by (apply lt_IZR; lra). rewrite INR_IZR_INZ, Z2Nat.id by lia. lra. }
  destruct HNe as (N & HN).
  assert (HB : PI / 4 <= h N).
  { specialize (Hge N). apply (Rmult_lt_compat_r dl) in HN; [|exact Hdl]. unfold Rdiv in HN. rewrite Rmult_assoc, Rinv_l in HN by lra. unfold Rdiv. lra. }
  assert (First : exists n, PI / 4 <= h n < 3 * (PI / 4)).
  { clear HN. revert HB. induction N as [|N IH]; intros HB.
    - exists 0%nat. split; [exact HB|]. cbn. pose proof PI_RGT_0. lra.
    - destruct (Rle_or_lt (PI / 4) (h N)) as [L|L]; [auto|]. exists (S N). split; [exact HB|]. rewrite HS. unfold half_step.
      assert (H0 : 0 <= h N) by (specialize (Hge N); pose proof (pos_INR N); nra).
      assert (S0 : 0 <= sin (2 * h N)) by (apply sin_ge_0; lra).
      pose proof (@atan_le (ka * sin (2 * h N) / 2) ltac:(nra)) as A1. pose proof (atan_bound (b / 2)) as A2. lra. }
  destruct First as (n & Hn). exists n. apply cos_le_0; unfold h in Hn; lra.
Qed.

(** * Roll and pitch of a level device *)
Lemma cos_abs_le a E : - PI <= a <= PI -> 0 <= E <= PI -> cos E <= cos a -> Rabs a <= E.
Proof.
  intros Ha HE H. destruct (Rle_or_lt (Rabs a) E) as [L|L]; [exact L|exfalso].
  assert (Ea : cos (Rabs a) = cos a) by (unfold Rabs; destruct (Rcase_abs a); [apply cos_neg|reflexivity]).
  assert (Ba : Rabs a <= PI) by (apply Rabs_le; lra).
  pose proof (cos_decreasing_1 E (Rabs a) ltac:(lra) ltac:(lra) ltac:(pose proof (Rabs_pos a); lra) Ba L). lra.
Qed.
Lemma level_angles roll pitch E : - PI <= roll <= PI -> - (PI / 2) <= pitch <= PI / 2 -> 0 <= E < PI / 2 ->
  cos E <= cos pitch * cos roll -> Rabs roll <= E /\ Rabs pitch <= E.
Proof.
  intros Hr Hp HE H. assert (C0 : 0 < cos E) by (apply cos_gt_0; lra). assert (P0 : 0 <= cos pitch) by (apply cos_ge_0; lra).
  pose proof (COS_bound pitch) as B1. pose proof (COS_bound roll) as B2. assert (R0 : 0 < cos roll) by nra.
  split; apply cos_abs_le; try lra; nra.
Qed.
(** cosines of small angles *)
Lemma cos_low x : 1 - x * x / 2 <= cos x.
Proof.
  assert (E : cos x = 1 - 2 * (sin (x / 2) * sin (x / 2))) by (replace x with (2 * (x / 2)) at 1 by field; rewrite cos_2a_sin; ring).
  assert (S : forall y, 0 <= y -> sin y * sin y <= y * y).
  { intros y Hy. pose proof (@sin_lip 0 y Hy) as L. rewrite sin_0 in L.
    assert (- y <= sin y); [|nra]. pose proof (@sin_lip (- y) 0 ltac:(lra)) as L2. rewrite sin_0, sin_neg in L2.
    destruct (Rle_or_lt y PI) as [L3|L3]; [pose proof (@sin_ge_0 y Hy L3); lra|pose proof (SIN_bound y); pose proof PI2_1; lra]. }
  rewrite E. destruct (Rle_or_lt 0 (x / 2)) as [L|L].
  - specialize (S _ L). nra.
  - specialize (S (- (x / 2)) ltac:(lra)). rewrite sin_neg in S. nra.
Qed.
Lemma sin_low y : 0 <= y <= PI -> y * cos y <= sin y.
Proof.
  intros [[L| <-] H]; [|rewrite sin_0; lra].
  destruct (@MVT_cor2 sin cos 0 y L (fun c _ => derivable_pt_lim_sin c)) as (c & E & Hc). rewrite sin_0 in E.
  assert (cos y <= cos c) by (apply cos_mono; lra). nra.
Qed.
(** the numbers of the unit test *)
Lemma test_numbers : cos (1 / 60 - 2 * atan (1 / 5000 / 2)) <=
  cos (1 / 60) + 1 / 10 / (1 + 1 / 10 * (1 / 10) / 4) * (cos (1 / 100) - cos (1 / 60)).
Proof.
  pose proof PI2_1 as P. pose proof (@atan_le (1 / 5000 / 2) ltac:(lra)) as A. set (ga := 2 * atan (1 / 5000 / 2)) in *.
  assert (G : 0 <= ga <= 1 / 5000) by (subst ga; lra).
  assert (L1 : cos (1 / 60 - ga) <= cos (1 / 60) + 1 / 60 * ga).
  { rewrite cos_minus. pose proof (COS_bound ga) as B1. pose proof (@cos_ge_0 (1 / 60) ltac:(lra) ltac:(lra)) as B2.
    pose proof (@sin_lip 0 (1 / 60) ltac:(lra)) as S1. pose proof (@sin_lip 0 ga ltac:(lra)) as S2. rewrite sin_0 in S1, S2.
    pose proof (@sin_ge_0 (1 / 60) ltac:(lra) ltac:(lra)). pose proof (@sin_ge_0 ga ltac:(lra) ltac:(lra)).
    assert (cos (1 / 60) * cos ga <= cos (1 / 60)) by nra. assert (sin (1 / 60) * sin ga <= 1 / 60 * ga) by (apply Rmult_le_compat; lra). lra. }
  assert (L2 : cos (1 / 60) <= 1 - 138 / 1000000).
  { replace (1 / 60) with (2 * (1 / 120)) by field. rewrite cos_2a_sin.
    pose proof (@sin_low (1 / 120) ltac:(lra)) as S1. pose proof (cos_low (1 / 120)) as S2.
    assert (83 / 10000 <= sin (1 / 120)) by lra. nra. }
  pose proof (cos_low (1 / 100)) as L3. lra.
Qed.
