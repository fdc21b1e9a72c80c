(** Proofs of C64. *)
From Coq Require Import Reals Lra Lia Psatz.
From Verif Require Import Lib NumOrd NumReal LibR Smooth Spec_Smooth Pf_Smooth Spec_Track.
Set Implicit Arguments.
Local Open Scope R_scope.
Local Open Scope list_scope.

(** the quadratic form contracted by one step of the filter *)
Definition energy (g e u : R) : R := e * e - 2 * (1 - g) / g * (e * u) + (1 - g) * (2 - g) / (g * g) * (u * u).
Lemma energy_step g e u : 1 / 10 <= g <= 9 / 10 ->
  energy g ((1 - g) * (e + u)) (u - g * g / (2 - g) * (e + u)) = (1 - g) * energy g e u.
Proof. intros H. unfold energy. field. lra. Qed.
Lemma energy_e g e u : 1 / 10 <= g <= 9 / 10 -> e * e <= (2 - g) * energy g e u.
Proof.
  intros H. assert (E : (2 - g) * energy g e u - e * e =
    (1 - g) * ((e - (2 - g) / g * u) * (e - (2 - g) / g * u))).
  { unfold energy. field. lra. }
  assert (0 <= (e - (2 - g) / g * u) * (e - (2 - g) / g * u)) by apply Rle_0_sqr. nra.
Qed.
Lemma energy_u g e u : 1 / 10 <= g <= 9 / 10 -> (1 - g) / (g * g) * (u * u) <= energy g e u.
Proof.
  intros H. assert (E : energy g e u - (1 - g) / (g * g) * (u * u) =
    (e - (1 - g) / g * u) * (e - (1 - g) / g * u)).
  { unfold energy. field. lra. }
  assert (0 <= (e - (1 - g) / g * u) * (e - (1 - g) / g * u)) by apply Rle_0_sqr. lra.
Qed.
Lemma energy_nonneg g e u : 1 / 10 <= g <= 9 / 10 -> 0 <= energy g e u.
Proof. intros H. assert (A := energy_e e u H). assert (0 <= e * e) by apply Rle_0_sqr. nra. Qed.

Definition calm (s : settings RX) (H : Z) (dx dy : R) : Prop :=
  (s_speedcon s = false /\ s_barriers s = false /\ (H <= 10000)%Z) \/ (dx = 0 /\ dy = 0).
Lemma gain_of_bounds w : 1 / 10 <= gain_of w <= 9 / 10.
Proof. unfold gain_of, Rmin, Rmax. destruct (Rle_dec 0 w); destruct (Rle_dec 1 _); lra. Qed.

Lemma track_step (s : settings RX) w al (a : absm RX) (p : position RX) x y vx vy cx cy dx dy H :
  s_accsmooth s = false -> s_smoothing s = Some w -> ab_called a = true -> ab_state a x y vx vy ->
  (0 < H)%Z -> p_ts p = (p_ts (ab_pos a) + H)%Z -> at_point p (cx + dx) (cy + dy) -> calm s H dx dy ->
  let g := gain_of w in let h := IZR H / 1000 in
  exists r vx' vy' x' y', ab_smooth s al a p = (mkAB true (Some vx') (Some vy') r, r) /\ at_point r x' y' /\ p_ts r = p_ts p /\
  energy g (x' - (cx + dx)) (h * vx' - dx) <= (1 - g) * energy g (x - cx) (h * vx - dx) /\
  energy g (y' - (cy + dy)) (h * vy' - dy) <= (1 - g) * energy g (y - cy) (h * vy - dy).
Proof.
  intros Ha Hw Hc Hs HH Ht Hp Hcalm g h.
  assert (Bg : 1 / 10 <= g <= 9 / 10) by apply gain_of_bounds.
  assert (Eh : IZR (p_ts p - p_ts (ab_pos a)) / 1000 = h).
  { unfold h. rewrite Ht. replace (p_ts (ab_pos a) + H - p_ts (ab_pos a))%Z with H by lia. reflexivity. }
  assert (Hh : 0 < h) by (unfold h; assert (0 < IZR H) by (apply IZR_lt; lia); lra).
  destruct (@ab_step s w al a p x y vx vy _ _ Hw Hs Hp) as [[Hle _]|(_ & g' & Hg' & _ & Hst)]; [lia|].
  rewrite (gain_const s (ab_pos a) p Ha Hw) in Hg'. injection Hg' as Hg'. change (g = g') in Hg'. subst g'.
  cbv zeta in Hst. rewrite Eh in Hst.
  set (X := blend g (x + vx * h) (cx + dx)) in *. set (Y := blend g (y + vy * h) (cy + dy)) in *.
  set (VX := correct_speed g h vx (x + vx * h) (cx + dx)) in *. set (VY := correct_speed g h vy (y + vy * h) (cy + dy)) in *.
  destruct Hst as [H1 H2].
  match type of H1 with ?P -> _ => assert (D : P \/ ~ P) end.
  { destruct (Rle_dec h 10) as [D1|D1]; [|right; tauto].
    destruct (s_speedcon s).
    - destruct (Rle_dec (sqrt (speed2 VX VY)) 4) as [D2|D2]; [|right; intros (_ & _ & Q & _); apply D2, Q; reflexivity].
      destruct (s_barriers s); [|left; repeat split; auto; discriminate].
      destruct (al (Some X) (Some Y)); [left; auto|right; intros (_ & _ & _ & Q); specialize (Q eq_refl); discriminate].
    - destruct (s_barriers s); [|left; repeat split; auto; discriminate].
      destruct (al (Some X) (Some Y)); [left; repeat split; auto; discriminate|right; intros (_ & _ & _ & Q); specialize (Q eq_refl); discriminate]. }
  destruct D as [D|D].
  - destruct (H1 D) as (r & E & Hr & Htr & _). exists r, VX, VY, X, Y.
    split; [exact E|]. split; [exact Hr|]. split; [exact Htr|].
    assert (P : forall z v c d, energy g (blend g (z + v * h) (c + d) - (c + d)) (h * correct_speed g h v (z + v * h) (c + d) - d) <= (1 - g) * energy g (z - c) (h * v - d)).
    { intros z v c d. right. rewrite <- energy_step by exact Bg. f_equal; unfold blend, correct_speed; [ring|field; lra]. }
    split; apply P.
  - rewrite (H2 D). destruct Hcalm as [(C1 & C2 & C3)|[-> ->]].
    + exfalso. apply D. rewrite C1, C2. split; [exact Hc|]. split; [|split; discriminate].
      unfold h. assert (IZR H <= 10000) by (apply IZR_le; lia). lra.
    + exists p, 0, 0, (cx + 0), (cy + 0). split; [reflexivity|]. split; [exact Hp|]. split; [reflexivity|].
      assert (Z0 : forall c, energy g (c - c) (h * 0 - 0) = 0).
      { intros c. replace (c - c) with 0 by ring. replace (h * 0 - 0) with 0 by ring. unfold energy. field. lra. }
      rewrite !Z0. split; apply Rmult_le_pos; try lra; apply energy_nonneg; exact Bg.
Qed.

Lemma track (s : settings RX) w al dx dy H : s_accsmooth s = false -> s_smoothing s = Some w -> (0 < H)%Z -> calm s H dx dy ->
  forall ps (a : absm RX) x y vx vy cx cy, ab_called a = true -> ab_state a x y vx vy ->
  uniform (p_ts (ab_pos a)) H ps -> moving cx cy dx dy ps ->
  let g := gain_of w in let h := IZR H / 1000 in
  forall k, (k < List.length ps)%nat -> exists r x' y' vx' vy',
    nth_error (smoothed s al a ps) k = Some r /\
    fst (ab_run s a (map (ASmooth al) (firstn (S k) ps))) = mkAB true (Some vx') (Some vy') r /\ at_point r x' y' /\
    energy g (x' - (cx + INR (S k) * dx)) (h * vx' - dx) <= (1 - g) ^ S k * energy g (x - cx) (h * vx - dx) /\
    energy g (y' - (cy + INR (S k) * dy)) (h * vy' - dy) <= (1 - g) ^ S k * energy g (y - cy) (h * vy - dy).
Proof.
  intros Ha Hw HH Hcalm. induction ps as [|p ps IH]; intros a x y vx vy cx cy Hc Hs Hu Hm g h k Hk; [cbn in Hk; lia|].
  assert (Bg : 1 / 10 <= g <= 9 / 10) by apply gain_of_bounds.
  assert (Hp := Hm 0%nat p eq_refl). assert (Ht := Hu 0%nat p eq_refl).
  change (INR 1) with 1 in Hp. rewrite !Rmult_1_l in Hp.
  destruct (@track_step s w al a p x y vx vy cx cy dx dy H Ha Hw Hc Hs HH) as (r & vx' & vy' & x' & y' & E & Hr & Htr & Ex & Ey);
    [rewrite Ht; lia|exact Hp|exact Hcalm|]. fold g in Ex, Ey. fold h in Ex, Ey.
  unfold smoothed. cbn [map ab_run]. rewrite E.
  destruct (ab_run s (mkAB true (Some vx') (Some vy') r) (map (ASmooth al) ps)) as [a2 rs] eqn:Er. cbn [snd].
  destruct k as [|k].
  - exists r, x', y', vx', vy'. cbn [nth_error firstn map ab_run]. rewrite E. cbn [fst].
    rewrite pow_1. change (INR 1) with 1. rewrite !Rmult_1_l. repeat split; try apply Hr; assumption.
  - destruct (IH (mkAB true (Some vx') (Some vy') r) x' y' vx' vy' (cx + dx) (cy + dy)) with (k := k)
      as (r2 & x2 & y2 & vx2 & vy2 & N & S2 & P2 & Ex2 & Ey2); [reflexivity|split; [exact Hr|split; reflexivity]| | |cbn in Hk; lia|].
    + intros j q Hj. rewrite (Hu (S j) q Hj). transitivity (p_ts r + Z.of_nat (S j) * H)%Z; [rewrite Htr, Ht; lia|reflexivity].
    + intros j q Hj. destruct (Hm (S j) q Hj) as [Q1 Q2]. rewrite (S_INR (S j)) in Q1, Q2. split; [rewrite Q1|rewrite Q2]; f_equal; ring.
    + exists r2, x2, y2, vx2, vy2. unfold smoothed in N. rewrite Er in N. cbn [snd] in N. split; [exact N|].
      split.
      { etransitivity; [|exact S2]. change (firstn (S (S k)) (p :: ps)) with (p :: firstn (S k) ps).
        cbn [map]. cbn [ab_run]. rewrite E. destruct (ab_run s _ (map (ASmooth al) (firstn (S k) ps))). reflexivity. }
      split; [exact P2|].
      fold g h in Ex2, Ey2. rewrite (S_INR (S k)). 
      replace (cx + (INR (S k) + 1) * dx) with (cx + dx + INR (S k) * dx) by ring.
      replace (cy + (INR (S k) + 1) * dy) with (cy + dy + INR (S k) * dy) by ring.
      assert (Pk : 0 <= (1 - g) ^ S k) by (apply pow_le; lra).
      change ((1 - g) ^ S (S k)) with ((1 - g) * (1 - g) ^ S k).
      split; [eapply Rle_trans; [exact Ex2|]|eapply Rle_trans; [exact Ey2|]].
      * rewrite (Rmult_comm (1 - g)), Rmult_assoc. apply Rmult_le_compat_l; assumption.
      * rewrite (Rmult_comm (1 - g)), Rmult_assoc. apply Rmult_le_compat_l; assumption.
Qed.

Lemma bound_energy g e u k : 1 / 10 <= g <= 9 / 10 -> error_bound g e u k = (2 - g) * ((1 - g) ^ k * energy g e u).
Proof. intros H. unfold error_bound, energy. ring. Qed.
Lemma error_of g e u e0 u0 k : 1 / 10 <= g <= 9 / 10 -> energy g e u <= (1 - g) ^ k * energy g e0 u0 ->
  e * e <= error_bound g e0 u0 k /\ u * u <= g * g / ((1 - g) * (2 - g)) * error_bound g e0 u0 k.
Proof.
  intros H L. rewrite bound_energy by exact H. assert (A := energy_e e u H). assert (B := energy_u e u H).
  set (K := (1 - g) ^ k * energy g e0 u0) in *. split; [nra|].
  replace (g * g / ((1 - g) * (2 - g)) * ((2 - g) * K)) with (g * g / (1 - g) * K) by (field; lra).
  apply Rle_trans with (g * g / (1 - g) * ((1 - g) / (g * g) * (u * u))).
  - right. field. lra.
  - apply Rmult_le_compat_l; [|lra]. apply Rmult_le_pos; [nra|]. left. apply Rinv_0_lt_compat. lra.
Qed.

Theorem ab_tracks (s : settings RX) w al (a : absm RX) ps x y vx vy cx cy dx dy H :
  s_accsmooth s = false -> s_smoothing s = Some w -> ab_called a = true -> ab_state a x y vx vy -> (0 < H)%Z ->
  (s_speedcon s = false /\ s_barriers s = false /\ (H <= 10000)%Z) \/ (dx = 0 /\ dy = 0) ->
  uniform (p_ts (ab_pos a)) H ps -> moving cx cy dx dy ps ->
  let g := gain_of w in let h := IZR H / 1000 in
  forall k, (k < List.length ps)%nat -> exists r x' y' vx' vy',
    nth_error (smoothed s al a ps) k = Some r /\
    ab_state (fst (ab_run s a (map (ASmooth al) (firstn (S k) ps)))) x' y' vx' vy' /\ at_point r x' y' /\
    (x' - (cx + INR (S k) * dx)) * (x' - (cx + INR (S k) * dx)) <= error_bound g (x - cx) (h * vx - dx) (S k) /\
    (y' - (cy + INR (S k) * dy)) * (y' - (cy + INR (S k) * dy)) <= error_bound g (y - cy) (h * vy - dy) (S k) /\
    (h * vx' - dx) * (h * vx' - dx) <= g * g / ((1 - g) * (2 - g)) * error_bound g (x - cx) (h * vx - dx) (S k) /\
    (h * vy' - dy) * (h * vy' - dy) <= g * g / ((1 - g) * (2 - g)) * error_bound g (y - cy) (h * vy - dy) (S k).
Proof.
  intros Ha Hw Hc Hs HH Hcalm Hu Hm g h k Hk.
  destruct (@track s w al dx dy H Ha Hw HH Hcalm ps a x y vx vy cx cy Hc Hs Hu Hm k Hk) as (r & x' & y' & vx' & vy' & N & S2 & P & Ex & Ey).
  fold g h in Ex, Ey. assert (Bg : 1 / 10 <= g <= 9 / 10) by apply gain_of_bounds.
  destruct (@error_of _ _ _ _ _ _ Bg Ex) as [X1 X2]. destruct (@error_of _ _ _ _ _ _ Bg Ey) as [Y1 Y2].
  exists r, x', y', vx', vy'. split; [exact N|]. split; [rewrite S2; split; [exact P|split; reflexivity]|]. auto 8.
Qed.

Theorem ab_settles (s : settings RX) w al (a : absm RX) ps x y cx cy H :
  s_accsmooth s = false -> s_smoothing s = Some w -> ab_called a = true -> ab_state a x y 0 0 -> (0 < H)%Z ->
  uniform (p_ts (ab_pos a)) H ps -> moving cx cy 0 0 ps ->
  let g := gain_of w in
  forall k r, nth_error (smoothed s al a ps) k = Some r -> exists x' y', at_point r x' y' /\
    (x' - cx) * (x' - cx) <= (2 - g) * (1 - g) ^ S k * ((x - cx) * (x - cx)) /\
    (y' - cy) * (y' - cy) <= (2 - g) * (1 - g) ^ S k * ((y - cy) * (y - cy)).
Proof.
  intros Ha Hw Hc Hs HH Hu Hm g k r Hr.
  assert (Hl : List.length (smoothed s al a ps) = List.length ps).
  { unfold smoothed. clear. revert a. induction ps as [|p ps IH]; intros a; [reflexivity|]. cbn [map ab_run].
    destruct (ab_smooth s al a p) as [a1 r1]. specialize (IH a1). destruct (ab_run s a1 _) as [a2 rs]. cbn in *. lia. }
  assert (Hk : (k < List.length ps)%nat) by (rewrite <- Hl; apply nth_error_Some; congruence).
  destruct (@ab_tracks s w al a ps x y 0 0 cx cy 0 0 H Ha Hw Hc Hs HH) with (k := k) as (r' & x' & y' & vx' & vy' & N & _ & P & Ex & Ey & _);
    [right; auto|exact Hu|exact Hm|exact Hk|]. rewrite N in Hr. injection Hr as <-. exists x', y'. split; [exact P|].
  fold g in Ex, Ey. assert (Bg : 1 / 10 <= g <= 9 / 10) by apply gain_of_bounds.
  assert (E : forall e K, error_bound g e (K * 0 - 0) (S k) = (2 - g) * (1 - g) ^ S k * (e * e)).
  { intros e K. unfold error_bound. field. lra. }
  rewrite E in Ex, Ey. rewrite !Rmult_0_r, !Rplus_0_r in Ex, Ey. split; assumption.
Qed.

Lemma bound_vanishes g e u eps : 1 / 10 <= g <= 9 / 10 -> 0 < eps -> exists N, forall k, (N <= k)%nat -> error_bound g e u k < eps.
Proof.
  intros Bg He. set (K := (2 - g) * energy g e u). assert (HK : 0 <= K) by (apply Rmult_le_pos; [lra|apply energy_nonneg; exact Bg]).
  assert (HA : Rabs (1 - g) < 1) by (rewrite Rabs_right; lra).
  destruct (@pow_lt_1_zero (1 - g) HA (eps / (K + 1))) as (N & HN); [apply Rmult_lt_0_compat; [exact He|apply Rinv_0_lt_compat; lra]|].
  exists N. intros k Hk. specialize (HN k Hk). rewrite bound_energy by exact Bg.
  assert (0 <= (1 - g) ^ k) by (apply pow_le; lra). rewrite Rabs_right in HN by lra.
  replace ((2 - g) * ((1 - g) ^ k * energy g e u)) with ((1 - g) ^ k * K) by (unfold K; ring).
  apply Rle_lt_trans with ((1 - g) ^ k * (K + 1)); [nra|].
  apply Rmult_lt_compat_r with (r := K + 1) in HN; [|lra].
  replace (eps / (K + 1) * (K + 1)) with eps in HN by (field; lra). exact HN.
Qed.

Theorem ab_limit (s : settings RX) w (a : absm RX) x y vx vy cx cy dx dy H eps :
  s_accsmooth s = false -> s_smoothing s = Some w -> ab_called a = true -> ab_state a x y vx vy -> (0 < H)%Z -> 0 < eps ->
  (s_speedcon s = false /\ s_barriers s = false /\ (H <= 10000)%Z) \/ (dx = 0 /\ dy = 0) ->
  exists N, forall al ps, uniform (p_ts (ab_pos a)) H ps -> moving cx cy dx dy ps ->
  forall k r p, (N <= k)%nat -> nth_error ps k = Some p -> nth_error (smoothed s al a ps) k = Some r ->
  exists x' y' px py, at_point r x' y' /\ at_point p px py /\ Rabs (x' - px) < eps /\ Rabs (y' - py) < eps.
Proof.
  intros Ha Hw Hc Hs HH He Hcalm. assert (Bg := gain_of_bounds w). set (h := IZR H / 1000).
  assert (Hee : 0 < eps * eps) by nra.
  destruct (@bound_vanishes (gain_of w) (x - cx) (h * vx - dx) (eps * eps) Bg Hee) as (N1 & L1).
  destruct (@bound_vanishes (gain_of w) (y - cy) (h * vy - dy) (eps * eps) Bg Hee) as (N2 & L2).
  exists (Nat.max N1 N2). intros al ps Hu Hm k r p Hk Hp Hr.
  assert (Hl : (k < List.length ps)%nat) by (apply nth_error_Some; congruence).
  destruct (@ab_tracks s w al a ps x y vx vy cx cy dx dy H Ha Hw Hc Hs HH Hcalm Hu Hm k Hl) as (r' & x' & y' & vx' & vy' & N & _ & P & Ex & Ey & _).
  rewrite N in Hr. injection Hr as <-. exists x', y', (cx + INR (S k) * dx), (cy + INR (S k) * dy). split; [exact P|].
  split; [apply Hm; exact Hp|]. fold h in Ex, Ey. specialize (L1 (S k) ltac:(lia)). specialize (L2 (S k) ltac:(lia)).
  assert (A : forall z, z * z < eps * eps -> Rabs z < eps).
  { intros z Hz. apply Rsqr_lt_abs_0 in Hz. rewrite (Rabs_right eps) in Hz by lra. exact Hz. }
  split; apply A; lra.
Qed.
