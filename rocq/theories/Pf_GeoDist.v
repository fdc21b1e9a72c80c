(** The haversine distance is the great-circle metric. *)
From Coq Require Import Reals Lra Psatz.
From Verif Require Import Lib LibR NumReal Tools Spec_Geo Spec_Tools Pf_Cf.
Set Implicit Arguments.
Local Open Scope R_scope.

(** the haversine *)
Definition hav (p q : pt) : R :=
  sin ((radians (fst p) - radians (fst q)) / 2) ^ 2 +
  cos (radians (fst p)) * cos (radians (fst q)) * sin ((radians (snd p) - radians (snd q)) / 2) ^ 2.

Lemma sin2_half x : sin (x / 2) ^ 2 = (1 - cos x) / 2.
Proof. replace x with (2 * (x / 2)) at 2 by field. rewrite cos_2a_sin. field. Qed.

Lemma hav_dot p q : hav p q = (1 - dot3 (on_sphere p) (on_sphere q)) / 2.
Proof.
  unfold hav. rewrite !sin2_half, !cos_minus. unfold dot3, on_sphere. field.
Qed.

Lemma unit_sphere p : dot3 (on_sphere p) (on_sphere p) = 1.
Proof.
  unfold dot3, on_sphere. set (a := radians (fst p)). set (b := radians (snd p)).
  pose proof (sin2_cos2 a) as A. pose proof (sin2_cos2 b) as B. unfold Rsqr in *.
  replace (_ + _ + _) with (cos a * cos a * (sin b * sin b + cos b * cos b) + sin a * sin a) by ring. rewrite B. lra.
Qed.

Lemma sq3 a b c : 0 <= a * a + b * b + c * c.
Proof. pose proof (Rle_0_sqr a). pose proof (Rle_0_sqr b). pose proof (Rle_0_sqr c). unfold Rsqr in *. lra. Qed.
Lemma sq3_zero a b c : a * a + b * b + c * c = 0 -> a = 0 /\ b = 0 /\ c = 0.
Proof.
  intros H. pose proof (Rle_0_sqr a). pose proof (Rle_0_sqr b). pose proof (Rle_0_sqr c).
  repeat split; apply Rsqr_0_uniq; unfold Rsqr in *; lra.
Qed.

Lemma dot_bound u v : dot3 u u = 1 -> dot3 v v = 1 -> -1 <= dot3 u v <= 1.
Proof.
  destruct u as [[a b] c], v as [[x y] z]. unfold dot3. intros U V. split.
  - pose proof (sq3 (a + x) (b + y) (c + z)). lra.
  - pose proof (sq3 (a - x) (b - y) (c - z)). lra.
Qed.

Lemma hav_range p q : 0 <= hav p q <= 1.
Proof. rewrite hav_dot. pose proof (@dot_bound (on_sphere p) (on_sphere q) (unit_sphere p) (unit_sphere q)). lra. Qed.

Definition gdist (p q : pt) : R := earth * (2 * Ratan2 (sqrt (hav p q)) (sqrt (1 - hav p q))).

Lemma geo_dist_real p q : geo_dist (rx_geo p) (rx_geo q) = (Some (gdist p q) : RX).
Proof.
  pose proof (hav_range p q) as H.
  unfold geo_dist, rx_geo. cbn [lat lon].
  change (fpi : RX) with (Some PI : RX).
  rewrite !rx_mul, !rx_ofZ, !rx_div by lra. rewrite !rx_sub, !rx_div by lra.
  change (fsin (Some ((PI * fst p / 180 - PI * fst q / 180) / 2))) with (Some (sin ((radians (fst p) - radians (fst q)) / 2)) : RX).
  change (fsin (Some ((PI * snd p / 180 - PI * snd q / 180) / 2))) with (Some (sin ((radians (snd p) - radians (snd q)) / 2)) : RX).
  change (fcos (Some (PI * fst p / 180))) with (Some (cos (radians (fst p))) : RX).
  change (fcos (Some (PI * fst q / 180))) with (Some (cos (radians (fst q))) : RX).
  change (fpowi (Some (sin ((radians (fst p) - radians (fst q)) / 2))) 2) with (Some (sin ((radians (fst p) - radians (fst q)) / 2) ^ 2) : RX).
  change (fpowi (Some (sin ((radians (snd p) - radians (snd q)) / 2))) 2) with (Some (sin ((radians (snd p) - radians (snd q)) / 2) ^ 2) : RX).
  rewrite !rx_mul, !rx_add. fold (hav p q). rewrite rx_f1, rx_sub.
  rewrite !rx_sqrt by lra.
  change (fatan2 (Some (sqrt (hav p q))) (Some (sqrt (1 - hav p q)))) with (Some (Ratan2 (sqrt (hav p q)) (sqrt (1 - hav p q))) : RX).
  rewrite !rx_mul. reflexivity.
Qed.

Lemma atan2_quadrant y x : 0 <= y -> 0 <= x -> 0 <= Ratan2 y x <= PI / 2.
Proof.
  intros Hy Hx. assert (P := PI_RGT_0). unfold Ratan2. destruct (Rltb 0 x) eqn:E1.
  - apply Rltb_true in E1. pose proof (atan_bound (y / x)) as B. split; [|lra].
    destruct (Req_dec y 0) as [->|N]; [unfold Rdiv; rewrite Rmult_0_l, atan_0; lra|].
    left. rewrite <- atan_0. apply atan_increasing. apply Rdiv_lt_0_compat; lra.
  - apply Rltb_false in E1. assert (x = 0) by lra. subst x. rewrite (proj2 (Rltb_false 0 0)) by lra.
    destruct (Rltb 0 y) eqn:E2; [lra|]. apply Rltb_false in E2. assert (y = 0) by lra. subst y.
    rewrite (proj2 (Rltb_false 0 0)) by lra. lra.
Qed.

Lemma gdist_great p q : great_circle p q (gdist p q).
Proof.
  pose proof (hav_range p q) as H. assert (P := PI_RGT_0).
  pose proof (@atan2_quadrant (sqrt (hav p q)) (sqrt (1 - hav p q)) (sqrt_pos _) (sqrt_pos _)) as Q.
  destruct (atan2_polar (sqrt (hav p q)) (sqrt (1 - hav p q))) as [C S]. cbv zeta in C, S.
  rewrite !sqrt_def in C, S by lra. replace (1 - hav p q + hav p q) with 1 in C, S by ring. rewrite sqrt_1 in C, S.
  unfold great_circle, gdist, earth in *. set (t := Ratan2 _ _) in *. split; [nra|].
  replace (6378000 * (2 * t) / 6378000) with (2 * t) by field. rewrite cos_2a_sin.
  replace (sin t) with (sqrt (hav p q)) by lra.
  replace (2 * sqrt (hav p q) * sqrt (hav p q)) with (2 * (sqrt (hav p q) * sqrt (hav p q))) by ring.
  rewrite sqrt_def by lra. rewrite hav_dot. field.
Qed.

Lemma angle_of x y : 0 <= x <= PI -> 0 <= y <= PI -> cos x = cos y -> x = y.
Proof. intros. apply cos_inj; lra. Qed.

Lemma great_unique p q d d' : great_circle p q d -> great_circle p q d' -> d = d'.
Proof.
  unfold great_circle, earth. intros [H C] [H' C']. assert (P := PI_RGT_0).
  assert (d / 6378000 = d' / 6378000) by (apply cos_inj; lra). lra.
Qed.

Lemma dot_sym u v : dot3 u v = dot3 v u.
Proof. destruct u as [[a b] c], v as [[x y] z]. unfold dot3. ring. Qed.

Lemma gdist_sym p q : gdist p q = gdist q p.
Proof.
  apply (@great_unique p q); [apply gdist_great|]. destruct (gdist_great q p) as [H C]. split; [exact H|]. rewrite C. apply dot_sym.
Qed.
Lemma gdist_nonneg p q : 0 <= gdist p q. Proof. exact (proj1 (proj1 (gdist_great p q))). Qed.

Lemma dot_one u v : dot3 u u = 1 -> dot3 v v = 1 -> dot3 u v = 1 -> u = v.
Proof.
  destruct u as [[a b] c], v as [[x y] z]. unfold dot3. intros U V W.
  assert ((a - x) * (a - x) + (b - y) * (b - y) + (c - z) * (c - z) = 0) by lra.
  apply sq3_zero in H. destruct H as (A & B & C). f_equal; [f_equal|]; lra.
Qed.

Lemma gdist_zero p q : gdist p q = 0 <-> on_sphere p = on_sphere q.
Proof.
  destruct (gdist_great p q) as [H C]. split.
  - intros E. rewrite E in C. unfold Rdiv in C. rewrite Rmult_0_l, cos_0 in C.
    apply dot_one; [apply unit_sphere..|congruence].
  - intros E. rewrite E, unit_sphere in C. assert (P := PI_RGT_0). unfold earth in *.
    assert (gdist p q / 6378000 = 0) by (apply cos_inj; [lra|lra|rewrite cos_0; exact C]). lra.
Qed.
Lemma gdist_refl p : gdist p p = 0. Proof. apply gdist_zero. reflexivity. Qed.

(** spherical triangle inequality *)
Lemma gdist_triangle p q r : gdist p r <= gdist p q + gdist q r.
Proof.
  destruct (gdist_great p q) as [H1 C1], (gdist_great q r) as [H2 C2], (gdist_great p r) as [H3 C3].
  assert (P := PI_RGT_0). unfold earth in *.
  set (a := gdist p q / 6378000) in *. set (b := gdist q r / 6378000) in *. set (c := gdist p r / 6378000) in *.
  assert (Ha : 0 <= a <= PI) by (unfold a; lra). assert (Hb : 0 <= b <= PI) by (unfold b; lra).
  assert (Hc : 0 <= c <= PI) by (unfold c; lra).
  enough (c <= a + b) by (unfold a, b, c in *; lra).
  destruct (Rle_or_lt PI (a + b)) as [L|L]; [lra|].
  destruct (Rle_or_lt c (a + b)) as [G|G]; [exact G|exfalso].
  assert (cos c < cos (a + b)) by (apply cos_decreasing_1; lra).
  rewrite cos_plus in H.
  assert (S1 : 0 <= sin a) by (apply sin_ge_0; lra). assert (S2 : 0 <= sin b) by (apply sin_ge_0; lra).
  pose proof (sin2_cos2 a) as T1. pose proof (sin2_cos2 b) as T2. unfold Rsqr in T1, T2.
  pose proof (unit_sphere p) as Up. pose proof (unit_sphere q) as Uq. pose proof (unit_sphere r) as Ur.
  rewrite C1 in *. rewrite C2 in *. rewrite C3 in *.
  destruct (on_sphere p) as [[u1 u2] u3], (on_sphere q) as [[v1 v2] v3], (on_sphere r) as [[w1 w2] w3]. unfold dot3 in *.
  set (x1 := u2 * v3 - u3 * v2). set (x2 := u3 * v1 - u1 * v3). set (x3 := u1 * v2 - u2 * v1).
  set (y1 := v2 * w3 - v3 * w2). set (y2 := v3 * w1 - v1 * w3). set (y3 := v1 * w2 - v2 * w1).
  assert (I : x1 * y1 + x2 * y2 + x3 * y3 =
    (u1 * v1 + u2 * v2 + u3 * v3) * (v1 * w1 + v2 * w2 + v3 * w3) - (u1 * w1 + u2 * w2 + u3 * w3) * (v1 * v1 + v2 * v2 + v3 * v3))
    by (unfold x1, x2, x3, y1, y2, y3; ring).
  assert (X : x1 * x1 + x2 * x2 + x3 * x3 = sin a * sin a).
  { replace (sin a * sin a) with ((u1 * u1 + u2 * u2 + u3 * u3) * (v1 * v1 + v2 * v2 + v3 * v3) - (u1 * v1 + u2 * v2 + u3 * v3) * (u1 * v1 + u2 * v2 + u3 * v3))
      by (rewrite Up, Uq; lra). unfold x1, x2, x3; ring. }
  assert (Y : y1 * y1 + y2 * y2 + y3 * y3 = sin b * sin b).
  { replace (sin b * sin b) with ((v1 * v1 + v2 * v2 + v3 * v3) * (w1 * w1 + w2 * w2 + w3 * w3) - (v1 * w1 + v2 * w2 + v3 * w3) * (v1 * w1 + v2 * w2 + v3 * w3))
      by (rewrite Uq, Ur; lra). unfold y1, y2, y3; ring. }
  rewrite Uq in I.
  assert (CS : (x1 * y1 + x2 * y2 + x3 * y3) * (x1 * y1 + x2 * y2 + x3 * y3) <= (x1 * x1 + x2 * x2 + x3 * x3) * (y1 * y1 + y2 * y2 + y3 * y3)).
  { assert (0 <= (x1 * y2 - x2 * y1) * (x1 * y2 - x2 * y1) + (x1 * y3 - x3 * y1) * (x1 * y3 - x3 * y1) + (x2 * y3 - x3 * y2) * (x2 * y3 - x3 * y2)) by apply sq3.
    clearbody x1 x2 x3 y1 y2 y3. lra. }
  rewrite X, Y in CS.
  assert (B : x1 * y1 + x2 * y2 + x3 * y3 <= sin a * sin b).
  { destruct (Rle_or_lt (x1 * y1 + x2 * y2 + x3 * y3) (sin a * sin b)) as [B|B]; [exact B|exfalso].
    assert (0 <= sin a * sin b) by (apply Rmult_le_pos; assumption).
    set (z := x1 * y1 + x2 * y2 + x3 * y3) in *. nra. }
  lra.
Qed.

(** the comparison with 0.1 m *)
Lemma same_real p q : same_point (rx_geo p) (rx_geo q) = Rltb (gdist p q) (1 / 10).
Proof. unfold same_point. rewrite geo_dist_real, rx_lit by lra. rewrite rx_ltb. reflexivity. Qed.
Lemma same_refl_real p : same_point (rx_geo p) (rx_geo p) = true.
Proof. rewrite same_real, gdist_refl. apply Rltb_true. lra. Qed.

(** along the equator the distance is the arc *)
Lemma gdist_equator x y : 0 <= radians y - radians x <= PI -> gdist (0, x) (0, y) = earth * (radians y - radians x).
Proof.
  intros H. apply (@great_unique (0, x) (0, y)); [apply gdist_great|]. assert (P := PI_RGT_0). unfold great_circle, earth. split; [nra|].
  replace (6378000 * (radians y - radians x) / 6378000) with (radians y - radians x) by field.
  rewrite cos_minus. unfold dot3, on_sphere. cbn [fst snd].
  replace (radians 0) with 0 by (unfold radians; field). rewrite cos_0, sin_0. ring.
Qed.
