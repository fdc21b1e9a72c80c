(** Proofs of C68. *)
From Coq Require Import Reals Lra Lia.
From Verif Require Import Lib NumOrd NumReal LibR Smooth Spec_Smooth Pf_Smooth Spec_Track Pf_Track SaPos Spec_SaPos.
Set Implicit Arguments.
Local Open Scope list_scope.

(** the smoother of the navigation core with its options off *)
Lemma sa_refines {F} {NF : Num F} (s : settings F) al (a : absm F) (p : position F) : plain s ->
  let '(a', r) := ab_smooth s al a p in
  let '(m', q) := sa_smooth (sa_of s a) (sa_proj p) in
  ((p_ts (ab_pos a) < p_ts p)%Z -> fisfinite (sa_x q) && fisfinite (sa_y q) = true) ->
  m' = sa_of s a' /\ q = sa_proj r.
Proof.
  intros (H1 & H2 & H3). unfold ab_smooth, sa_smooth, ab_gain, sa_of. rewrite H1, H2, H3. cbn [sm_pos sa_proj sa_ts sm_alpha sm_vx sm_vy sm_called sa_x sa_y andb].
  destruct (Z.ltb_spec (p_ts (ab_pos a)) (p_ts p)) as [L|L]; [|auto].
  rewrite !orb_false_r. destruct (negb (ab_called a) || _); [auto|].
  cbn [sa_x sa_y]. intros H. rewrite (H L). auto.
Qed.
Lemma sa_first_call {F} {NF : Num F} w (p : sapos F) : (0 <= sa_ts p)%Z ->
  sa_smooth (sasm0 w) p = (mkSasm true f0 f0 (sm_alpha (sasm0 w)) p, p).
Proof. intros H. unfold sa_smooth. cbn [sm_pos sasm0 sapos0 sa_ts sm_called]. destruct (Z.ltb_spec (-1) (sa_ts p)); [reflexivity|lia]. Qed.
Lemma ab_first_call {F} {NF : Num F} (s : settings F) al (p : position F) : (0 < p_ts p)%Z ->
  ab_smooth s al ab0 p = (mkAB true f0 f0 p, p).
Proof. intros H. unfold ab_smooth. cbn [ab_pos ab0 pos0 p_ts ab_called]. destruct (Z.ltb_spec 0 (p_ts p)); [reflexivity|lia]. Qed.
Lemma sa_stale {F} {NF : Num F} (m : sasm F) p : (sa_ts p <= sa_ts (sm_pos m))%Z -> sa_smooth m p = (m, sm_pos m).
Proof. intros H. unfold sa_smooth. destruct (Z.ltb_spec (sa_ts (sm_pos m)) (sa_ts p)); [lia|reflexivity]. Qed.

Local Open Scope R_scope.
Lemma sa_alpha w : sm_alpha (sasm0 (Some w : RX)) = Some (gain_of w).
Proof.
  unfold sasm0, clamp01. cbn [sm_alpha]. cbv zeta. rewrite min_alpha_real, max_alpha_real, rx_f0, rx_f1, rx_fmax, rx_fmin, !rx_sub, !rx_mul, rx_add.
  f_equal. unfold gain_of. lra.
Qed.
Lemma sa_real_step (m : sasm RX) (p : sapos RX) g x y vx vy mx my : 1 / 10 <= g <= 9 / 10 ->
  sm_called m = true -> sm_alpha m = Some g -> sa_at (sm_pos m) x y -> sm_vx m = Some vx -> sm_vy m = Some vy -> sa_at p mx my ->
  (sa_ts (sm_pos m) < sa_ts p)%Z -> (sa_ts p - sa_ts (sm_pos m) <= 10000)%Z ->
  let t := IZR (sa_ts p - sa_ts (sm_pos m)) / 1000 in
  let r := mkSapos (Some (blend g (x + vx * t) mx)) (Some (blend g (y + vy * t) my)) (sa_prec p) (sa_empty p) (sa_ts p) in
  sa_smooth m p = (mkSasm true (Some (correct_speed g t vx (x + vx * t) mx)) (Some (correct_speed g t vy (y + vy * t) my)) (Some g) r, r).
Proof.
  intros Bg Hc Ha (Hx & Hy) Hvx Hvy (Mx & My) L1 L2 t r.
  assert (Ht : 0 < t) by (unfold t; assert (0 < IZR (sa_ts p - sa_ts (sm_pos m))) by (apply IZR_lt; lia); lra).
  assert (Ht2 : t <= 10) by (unfold t; assert (IZR (sa_ts p - sa_ts (sm_pos m)) <= 10000) by (apply IZR_le; lia); lra).
  assert (Et : fofZ (sa_ts p - sa_ts (sm_pos m)) /! fofZ 1000 = (Some t : RX)) by (apply (@rx_div _ 1000); lra).
  assert (B : (Some g : RX) *! Some g /! (fofZ 2 -! (Some g : RX)) /! Some t = Some (g * g / (2 - g) / t)).
  { rewrite rx_ofZ, rx_mul, rx_sub, rx_div by lra. apply rx_div. lra. }
  unfold sa_smooth. destruct (Z.ltb_spec (sa_ts (sm_pos m)) (sa_ts p)); [|lia]. rewrite Et, Ha, Hx, Hy, Hvx, Hvy, Mx, My, Hc, B. cbv zeta.
  rewrite rx_ofZ, rx_ltb. destruct (Rltb 10 t) eqn:E; [apply Rltb_true in E; lra|]. cbn [negb orb].
  rewrite !rx_mul, !rx_add, !rx_sub, !rx_mul, !rx_add.
  assert (EX : forall u mu, u + g * (mu - u) = blend g u mu) by (intros; unfold blend; ring). rewrite !EX. reflexivity.
Qed.

Lemma sa_track_from g dx dy H : 1 / 10 <= g <= 9 / 10 -> (0 < H <= 10000)%Z ->
  forall ps (m : sasm RX) x y vx vy cx cy, sm_called m = true -> sm_alpha m = Some g -> sa_at (sm_pos m) x y ->
  sm_vx m = Some vx -> sm_vy m = Some vy -> sa_motion (sa_ts (sm_pos m)) H cx cy dx dy ps ->
  let h := IZR H / 1000 in
  forall k r, nth_error (sa_smooth_all m ps) k = Some r -> exists x' y' ux uy, sa_at r x' y' /\
    energy g (x' - (cx + INR (S k) * dx)) ux <= (1 - g) ^ S k * energy g (x - cx) (h * vx - dx) /\
    energy g (y' - (cy + INR (S k) * dy)) uy <= (1 - g) ^ S k * energy g (y - cy) (h * vy - dy).
Proof.
  intros Bg HH. induction ps as [|p ps IH]; intros m x y vx vy cx cy Hc Ha Hx Hvx Hvy Hm h k r Hr; [destruct k; discriminate|].
  destruct (Hm 0%nat p eq_refl) as [Hts Hp]. change (INR 1) with 1 in Hp. rewrite !Rmult_1_l in Hp.
  assert (E := @sa_real_step m p g x y vx vy _ _ Bg Hc Ha Hx Hvx Hvy Hp ltac:(lia) ltac:(lia)). cbv zeta in E.
  assert (Eh : IZR (sa_ts p - sa_ts (sm_pos m)) / 1000 = h).
  { unfold h. rewrite Hts. replace (sa_ts (sm_pos m) + Z.of_nat 1 * H - sa_ts (sm_pos m))%Z with H by lia. reflexivity. }
  rewrite Eh in E. assert (Hh : 0 < h) by (unfold h; assert (0 < IZR H) by (apply IZR_lt; lia); lra).
  set (X := blend g (x + vx * h) (cx + dx)) in *. set (Y := blend g (y + vy * h) (cy + dy)) in *.
  set (VX := correct_speed g h vx (x + vx * h) (cx + dx)) in *. set (VY := correct_speed g h vy (y + vy * h) (cy + dy)) in *.
  assert (P : forall z v c d, energy g (blend g (z + v * h) (c + d) - (c + d)) (h * correct_speed g h v (z + v * h) (c + d) - d) = (1 - g) * energy g (z - c) (h * v - d)).
  { intros z v c d. rewrite <- energy_step by exact Bg. f_equal; unfold blend, correct_speed; [ring|field; lra]. }
  cbn [sa_smooth_all] in Hr. rewrite E in Hr. destruct k as [|k].
  - injection Hr as <-. exists X, Y, (h * VX - dx), (h * VY - dy). split; [split; reflexivity|].
    rewrite pow_1. change (INR 1) with 1. rewrite !Rmult_1_l. unfold X, Y, VX, VY. rewrite !P. split; apply Rle_refl.
  - set (r0 := mkSapos _ _ _ _ _) in *. cbn [nth_error] in Hr.
    assert (Q := IH (mkSasm true (Some VX) (Some VY) (Some g) r0) X Y VX VY (cx + dx) (cy + dy)).
    destruct Q with (k := k) (r := r) as (x' & y' & ux & uy & A & E1 & E2); try reflexivity; [split; reflexivity| |exact Hr|].
    + intros j q Hj. destruct (Hm (S j) q Hj) as [T1 [Q1 Q2]]. split.
      * rewrite T1. unfold r0. cbn [sm_pos sa_ts]. lia.
      * rewrite (S_INR (S j)) in Q1, Q2. split; [rewrite Q1|rewrite Q2]; f_equal; ring.
    + exists x', y', ux, uy. split; [exact A|]. fold h in E1, E2. unfold X, VX in E1. unfold Y, VY in E2. rewrite P in E1, E2. rewrite (S_INR (S k)).
      replace (cx + (INR (S k) + 1) * dx) with (cx + dx + INR (S k) * dx) by ring.
      replace (cy + (INR (S k) + 1) * dy) with (cy + dy + INR (S k) * dy) by ring.
      change ((1 - g) ^ S (S k)) with ((1 - g) * (1 - g) ^ S k). rewrite (Rmult_comm (1 - g)), !Rmult_assoc. split; assumption.
Qed.
Theorem sa_converges w (p0 : sapos RX) ps x0 y0 cx cy dx dy H : (0 < H <= 10000)%Z -> (0 <= sa_ts p0)%Z -> sa_at p0 x0 y0 ->
  sa_motion (sa_ts p0) H cx cy dx dy ps ->
  exists rs, sa_smooth_all (sasm0 (Some w : RX)) (p0 :: ps) = p0 :: rs /\
  let g := gain_of w in
  forall k r, nth_error rs k = Some r -> exists x y, sa_at r x y /\
    (x - (cx + INR (S k) * dx)) * (x - (cx + INR (S k) * dx)) <= error_bound g (x0 - cx) (- dx) (S k) /\
    (y - (cy + INR (S k) * dy)) * (y - (cy + INR (S k) * dy)) <= error_bound g (y0 - cy) (- dy) (S k).
Proof.
  intros HH H0 Hp Hm. cbn [sa_smooth_all]. rewrite sa_first_call by exact H0. rewrite sa_alpha, rx_f0. eexists. split; [reflexivity|].
  set (g := gain_of w). intros k r Hr. assert (Bg : 1 / 10 <= g <= 9 / 10) by apply gain_of_bounds. fold g in Hr.
  destruct (@sa_track_from g dx dy H Bg HH ps (mkSasm true (Some 0) (Some 0) (Some g) p0) x0 y0 0 0 cx cy eq_refl eq_refl Hp eq_refl eq_refl Hm k r Hr)
    as (x & y & ux & uy & A & E1 & E2).
  destruct (@error_of _ _ _ _ _ _ Bg E1) as [X _]. destruct (@error_of _ _ _ _ _ _ Bg E2) as [Y _].
  replace (IZR H / 1000 * 0 - dx) with (- dx) in X by ring. replace (IZR H / 1000 * 0 - dy) with (- dy) in Y by ring.
  exists x, y. auto.
Qed.
