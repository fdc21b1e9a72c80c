(** Proofs for C97. *)
From Coq Require Import Reals Lra Psatz.
From Verif Require Import Lib NumReal LibR Ray Spec_Post Spec_Geo Spec_Ray Pf_Post Pf_Geo.
Set Implicit Arguments.
Local Open Scope R_scope.

(** ** points on a segment *)
Lemma on_segment_real (p a b : pt) : on_segment p a b = true <-> Rabs (cross p a b) < eps /\
  (fst a - fst p) * (fst b - fst p) + (snd a - snd p) * (snd b - snd p) < eps.
Proof.
  unfold on_segment, point_on_line. rewrite !rx_sub, !rx_mul, rx_sub, rx_add, rx_abs, geps_real, !rx_ltb, andb_true_iff, !Rltb_true.
  unfold cross. reflexivity.
Qed.
Lemma segment_points (a b : pt) k : 0 <= k <= 1 -> on_segment (along a b k) a b = true.
Proof.
  intros H. apply on_segment_real. assert (P := eps_pos). split.
  - replace (cross (along a b k) a b) with 0; [rewrite Rabs_R0; exact P|]. unfold cross, along; cbn [fst snd]. ring.
  - unfold along; cbn [fst snd].
    replace (_ + _) with (- (k * (1 - k)) * len2 a b) by (unfold len2; ring).
    assert (L := len2_pos a b). assert (K : 0 <= k * (1 - k)) by nra. nra.
Qed.
Lemma pdist_bound p q r : 0 <= r -> sq p q <= r * r -> pdist p q <= r.
Proof. intros H1 H2. rewrite pdist_sq. rewrite <- (sqrt_square r H1). apply sqrt_le_1; [apply sq_pos|nra|exact H2]. Qed.
Lemma on_segment_near (p a b : pt) : on_segment p a b = true -> exists k, 0 <= k <= 1 /\ pdist p (along a b k) <= 11 / 100000.
Proof.
  intros H. apply on_segment_real in H. destruct H as [HC HD].
  assert (EP : eps = 1 / 100000000) by reflexivity.
  set (s := (fst p - fst a) * (fst b - fst a) + (snd p - snd a) * (snd b - snd a)).
  assert (L0 := len2_pos a b).
  assert (D1 : (fst a - fst p) * (fst b - fst p) + (snd a - snd p) * (snd b - snd p) = sq p a - s) by (unfold sq, s; ring).
  assert (D2 : (fst a - fst p) * (fst b - fst p) + (snd a - snd p) * (snd b - snd p) = sq p b - (len2 a b - s)) by (unfold sq, s, len2; ring).
  destruct (Rle_dec s 0) as [S0|S0].
  { exists 0. split; [lra|]. rewrite along0. apply pdist_bound; [lra|]. lra. }
  destruct (Rle_dec (len2 a b) s) as [S1|S1].
  { exists 1. split; [lra|]. rewrite along1. apply pdist_bound; [lra|]. lra. }
  apply Rnot_le_lt in S0, S1. set (L := len2 a b) in *. exists (s / L). split.
  { split; [apply Rlt_le, Rdiv_lt_0_compat; lra|]. apply (Rmult_le_reg_r L); [lra|]. unfold Rdiv. rewrite Rmult_assoc, Rinv_l by lra. lra. }
  apply pdist_bound; [lra|].
  assert (C2 : cross p a b * cross p a b < eps * eps).
  { assert (Q := Rabs_pos (cross p a b)). assert (X : Rabs (cross p a b) * Rabs (cross p a b) < eps * eps) by nra.
    rewrite <- Rabs_mult, Rabs_pos_eq in X; [exact X|]. apply Rle_0_sqr. }
  set (h := sq p (along a b (s / L))).
  assert (Hh : h * L = cross p a b * cross p a b).
  { unfold h. replace (sq p (along a b (s / L))) with (sq p a - s * s / L).
    - replace ((sq p a - s * s / L) * L) with (sq p a * L - s * s) by (field; lra). unfold sq, s, L, len2, cross. ring.
    - unfold sq, along; cbn [fst snd]. fold (sq p a). 
      transitivity (sq p a - 2 * (s / L) * s + (s / L) * (s / L) * L); [field; lra|]. unfold sq, s, L, len2. ring. }
  assert (Hs : sq p a - s = h - (s * (L - s)) / L).
  { unfold h. replace (sq p (along a b (s / L))) with (sq p a - s * s / L); [field; lra|].
    transitivity (sq p a - 2 * (s / L) * s + (s / L) * (s / L) * L); [field; lra|]. unfold sq, along, s, L, len2. cbn [fst snd]. ring. }
  assert (Q : s * (L - s) / L <= L / 4).
  { apply (Rmult_le_reg_r L); [lra|]. unfold Rdiv. rewrite Rmult_assoc, Rinv_l by lra. assert (X := Rle_0_sqr (L - 2 * s)). unfold Rsqr in X. lra. }
  assert (H0 : 0 <= h) by apply sq_pos.
  destruct (Rle_dec (83 / 100 * eps) L) as [LL|LL].
  - assert (h * (83 / 100 * eps) <= h * L) by (apply Rmult_le_compat_l; lra). assert (P := eps_pos).
    assert (X : h * (83 / 100) < eps). { apply (Rmult_lt_reg_r eps); [lra|]. lra. } lra.
  - apply Rnot_le_lt in LL. lra.
Qed.

(** ** rays *)
Lemma det3_cross (a b c : pt) : det3 (Some (fst a) : RX) (Some (snd a)) f1 (Some (fst b)) (Some (snd b)) f1 (Some (fst c)) (Some (snd c)) f1 = Some (cross a b c).
Proof. unfold det3. rewrite rx_f1, !rx_mul, !rx_add, rx_sub. f_equal. unfold cross. ring. Qed.
Lemma sqrt_eps : sqrt eps = 1 / 10000.
Proof. replace eps with ((1 / 10000) * (1 / 10000)) by (unfold eps; lra). apply sqrt_square. lra. Qed.
(** the test after lifting *)
Definition flat_test (p a b : pt) : bool :=
  if Rltb (snd a) (snd p) && Rltb (snd p) (snd b) then Rltb 0 (cross b p a + eps)
  else if Rltb (snd b) (snd p) && Rltb (snd p) (snd a) then Rltb 0 (cross a p b + eps) else false.
Lemma ray_lifted (p a b a' b' : pt) : lifted p a a' -> lifted p b b' -> ray_hits p a b = flat_test p a' b'.
Proof.
  intros HA HB. unfold ray_hits, xray_intersects_line. assert (P := eps_pos). rewrite geps_real, (@rx_sqrt eps), sqrt_eps by lra.
  rewrite !rx_sub, !rx_abs, !rx_ltb.
  assert (EA : (if Rltb (Rabs (snd p - snd a)) eps then (Some (snd a) : RX) +! Some (1 / 10000) else Some (snd a)) = Some (snd a') /\ fst a' = fst a).
  { destruct HA as [[H ->]|[H ->]]; [apply Rltb_true in H|apply Rltb_false in H]; rewrite H; split; reflexivity. }
  assert (EB : (if Rltb (Rabs (snd p - snd b)) eps then (Some (snd b) : RX) +! Some (1 / 10000) else Some (snd b)) = Some (snd b') /\ fst b' = fst b).
  { destruct HB as [[H ->]|[H ->]]; [apply Rltb_true in H|apply Rltb_false in H]; rewrite H; split; reflexivity. }
  destruct EA as [EA <-], EB as [EB <-]. rewrite EA, EB, !rx_ltb, !det3_cross, !rx_add, rx_f0, !rx_ltb. reflexivity.
Qed.
Lemma lift_exists p v : exists v', lifted p v v' /\ fst v' = fst v /\ snd v' <> snd p.
Proof.
  assert (P := eps_pos). destruct (Rlt_dec (Rabs (snd p - snd v)) eps) as [H|H].
  - exists (fst v, snd v + 1 / 10000). split; [left; auto|]. split; [reflexivity|]. cbn [snd]. unfold Rabs, eps in H. destruct (Rcase_abs _) in H; lra.
  - apply Rnot_lt_le in H. exists v. split; [right; auto|]. split; [reflexivity|]. intros E. rewrite E, Rminus_diag_eq, Rabs_R0 in H by reflexivity. lra.
Qed.
Lemma cross_gap (p a b : pt) k : snd (along a b k) = snd p -> cross b p a = (fst (along a b k) - fst p) * (snd b - snd a).
Proof. unfold along, cross; cbn [fst snd]. intros <-. ring. Qed.
Lemma cross_sym (p a b : pt) : cross a p b = - cross b p a.
Proof. unfold cross. ring. Qed.
Lemma level_k (p a b : pt) : snd a <> snd b -> snd (along a b ((snd p - snd a) / (snd b - snd a))) = snd p.
Proof. intros H. unfold along; cbn [snd]. field. lra. Qed.
Lemma frac_between u v : 0 < u < v -> 0 < u / v < 1.
Proof. intros H. split; [apply Rdiv_lt_0_compat; lra|]. apply (Rmult_lt_reg_r v); [lra|]. unfold Rdiv. rewrite Rmult_assoc, Rinv_l by lra. lra. Qed.
Lemma flat_exact (p a b : pt) : snd a <> snd p -> snd b <> snd p ->
  flat_test p a b = true <-> right_of p a b (eps / Rabs (snd b - snd a)).
Proof.
  intros NA NB. unfold flat_test, right_of. assert (P := eps_pos). split.
  - destruct (Rltb (snd a) (snd p) && Rltb (snd p) (snd b)) eqn:E1.
    + rewrite andb_true_iff, !Rltb_true in E1. rewrite Rltb_true. intros H. exists ((snd p - snd a) / (snd b - snd a)).
      split; [apply frac_between; lra|]. assert (LK := @level_k p a b ltac:(lra)). split; [exact LK|].
      rewrite (@cross_gap _ _ _ _ LK) in H. rewrite Rabs_pos_eq by lra. set (x := fst (along a b _)) in *.
      apply (Rmult_lt_reg_r (snd b - snd a)); [lra|]. rewrite Rmult_plus_distr_r. unfold Rdiv. rewrite Rmult_assoc, Rinv_l by lra. lra.
    + destruct (Rltb (snd b) (snd p) && Rltb (snd p) (snd a)) eqn:E2; [|discriminate].
      rewrite andb_true_iff, !Rltb_true in E2. rewrite Rltb_true. intros H. exists ((snd p - snd a) / (snd b - snd a)).
      split. { replace ((snd p - snd a) / (snd b - snd a)) with ((snd a - snd p) / (snd a - snd b)) by (field; lra). apply frac_between; lra. }
      assert (LK := @level_k p a b ltac:(lra)). split; [exact LK|]. rewrite cross_sym, (@cross_gap _ _ _ _ LK) in H.
      rewrite Rabs_left by lra. set (x := fst (along a b _)) in *.
      apply (Rmult_lt_reg_r (- (snd b - snd a))); [lra|]. rewrite Rmult_plus_distr_r. unfold Rdiv. rewrite Rmult_assoc, Rinv_l by lra. lra.
  - intros (k & Hk & Hy & Hx). assert (Hy' := Hy). unfold along in Hy'. cbn [snd] in Hy'. assert (G := @cross_gap _ _ _ _ Hy).
    set (x := fst (along a b k)) in *. clearbody x. destruct (Rtotal_order (snd a) (snd b)) as [O|[O|O]].
    + rewrite Rabs_pos_eq in Hx by lra. assert (H1 : snd a < snd p) by nra. assert (H2 : snd p < snd b) by nra.
      rewrite (proj2 (Rltb_true _ _) H1), (proj2 (Rltb_true _ _) H2). cbn [andb]. apply Rltb_true. rewrite G.
      apply (Rmult_lt_compat_r (snd b - snd a)) in Hx; [|lra]. rewrite Rmult_plus_distr_r in Hx. unfold Rdiv in Hx. rewrite Rmult_assoc, Rinv_l in Hx by lra. lra.
    + exfalso. rewrite <- O in Hy'. apply NA. lra.
    + rewrite Rabs_left in Hx by lra. assert (H1 : snd b < snd p) by nra. assert (H2 : snd p < snd a) by nra.
      rewrite (proj2 (Rltb_false (snd a) (snd p))), (proj2 (Rltb_true _ _) H1), (proj2 (Rltb_true _ _) H2) by lra. cbn [andb]. apply Rltb_true. rewrite cross_sym, G.
      apply (Rmult_lt_compat_r (- (snd b - snd a))) in Hx; [|lra]. rewrite Rmult_plus_distr_r in Hx. unfold Rdiv in Hx. rewrite Rmult_assoc, Rinv_l in Hx by lra. lra.
Qed.
Lemma lifted_off p v v' : lifted p v v' -> snd v' <> snd p /\ fst v' = fst v.
Proof.
  assert (P := eps_pos). intros [[H ->]|[H ->]]; (split; [|reflexivity]).
  - cbn [snd]. unfold Rabs, eps in H. destruct (Rcase_abs _) in H; lra.
  - intros E. rewrite E, Rminus_diag_eq, Rabs_R0 in H by reflexivity. lra.
Qed.
Lemma ray_exact (p a b a' b' : pt) : lifted p a a' -> lifted p b b' -> ray_hits p a b = true <-> right_of p a' b' (eps / Rabs (snd b' - snd a')).
Proof.
  intros HA HB. rewrite (@ray_lifted p a b a' b' HA HB). destruct (lifted_off HA), (lifted_off HB). apply flat_exact; assumption.
Qed.
Lemma right_of_sym (p a b : pt) tol : right_of p a b tol -> right_of p b a tol.
Proof.
  intros (k & Hk & Hy & Hx). exists (1 - k). split; [lra|].
  replace (along b a (1 - k)) with (along a b k) by (unfold along; f_equal; ring). auto.
Qed.
Lemma ray_sym (p a b : pt) : ray_hits p a b = ray_hits p b a.
Proof.
  destruct (lift_exists p a) as (a' & HA & _), (lift_exists p b) as (b' & HB & _).
  apply eq_true_iff_eq. rewrite (ray_exact HA HB), (ray_exact HB HA), (Rabs_minus_sym (snd a') (snd b')).
  split; apply right_of_sym.
Qed.

(** a ray that starts left of a polygon crosses its sides an even number of times *)
Definition above (p v : pt) : bool := Rltb (snd p) (snd v) || Rltb (Rabs (snd p - snd v)) eps.
Lemma above_lifted p v v' : lifted p v v' -> above p v = Rltb (snd p) (snd v').
Proof.
  assert (P := eps_pos). unfold above. intros [[H ->]|[H ->]].
  - rewrite (proj2 (Rltb_true _ _) H), orb_true_r. symmetry. apply Rltb_true. cbn [snd]. unfold Rabs, eps in H. destruct (Rcase_abs _) in H; lra.
  - rewrite (proj2 (Rltb_false _ _) H). apply orb_false_r.
Qed.
Lemma ray_left (p a b : pt) : fst p <= fst a -> fst p <= fst b -> ray_hits p a b = xorb (above p a) (above p b).
Proof.
  intros LA LB. destruct (lift_exists p a) as (a' & HA & EA & NA), (lift_exists p b) as (b' & HB & EB & NB).
  rewrite (above_lifted HA), (above_lifted HB), (@ray_lifted p a b a' b' HA HB). unfold flat_test. assert (P := eps_pos).
  assert (C : cross b' p a' = (fst a' - fst p) * (snd b' - snd p) + (fst b' - fst p) * (snd p - snd a')) by (unfold cross; ring).
  destruct (Rltb (snd p) (snd a')) eqn:A1; [apply Rltb_true in A1|apply Rltb_false in A1];
    (destruct (Rltb (snd p) (snd b')) eqn:B1; [apply Rltb_true in B1|apply Rltb_false in B1]); cbn [xorb].
  - rewrite (proj2 (Rltb_false (snd a') (snd p))), (proj2 (Rltb_false (snd b') (snd p))) by lra. reflexivity.
  - rewrite andb_false_r. rewrite (proj2 (Rltb_true (snd b') (snd p))) by lra. cbn [andb]. apply Rltb_true. rewrite cross_sym, C. nra.
  - rewrite (proj2 (Rltb_true (snd a') (snd p))) by lra. cbn [andb]. apply Rltb_true. rewrite C. nra.
  - rewrite !andb_false_r. reflexivity.
Qed.
Lemma path_parity (p : pt) z : forall vs v, Forall (fun q => fst p <= fst q) (v :: vs ++ [z]) ->
  Nat.odd (List.length (filter (fun s => ray_hits p (fst s) (snd s)) (combine (v :: vs) (vs ++ [z])))) = xorb (above p v) (above p z).
Proof.
  induction vs as [|w r IH]; intros v H.
  - cbn [app combine filter fst snd]. rewrite ray_left; [|apply Forall_inv in H; exact H|apply Forall_inv_tail, Forall_inv in H; exact H].
    destruct (xorb _ _); reflexivity.
  - cbn [app]. change (combine (v :: w :: r) (w :: r ++ [z])) with ((v, w) :: combine (w :: r) (r ++ [z])). cbn [filter fst snd].
    assert (H' := Forall_inv_tail H). specialize (IH w H'). rewrite ray_left; [|apply Forall_inv in H; exact H|apply Forall_inv in H'; exact H'].
    destruct (xorb (above p v) (above p w)) eqn:E; cbn [List.length]; [rewrite Nat.odd_succ, <- Nat.negb_odd|]; rewrite IH;
      destruct (above p v), (above p w), (above p z); cbn in E |- *; congruence.
Qed.
Lemma polygon_even (p : pt) vs : Forall (fun q => fst p <= fst q) vs ->
  Nat.Even (List.length (filter (fun s => ray_hits p (fst s) (snd s)) (sides vs))).
Proof.
  intros H. apply Nat.even_spec. destruct vs as [|v r]; [reflexivity|]. unfold sides. rewrite <- Nat.negb_odd, path_parity, xorb_nilpotent; [reflexivity|].
  constructor; [apply Forall_inv in H; exact H|]. apply Forall_app. split; [apply Forall_inv_tail in H; exact H|]. constructor; [apply Forall_inv in H; exact H|constructor].
Qed.

(** ** lines *)
Lemma rdist_pdist (a b : pt) : rdist (fst a) (snd a) (fst b) (snd b) = pdist a b. Proof. reflexivity. Qed.
Lemma line_dist_real l (a b c : pt) : line_dist (loc l a) (loc l b) (loc l c) = if Rleb eps (pdist a b) then Some (Rabs (cross a b c) / pdist a b) else None.
Proof.
  unfold line_dist, get_dist_lp, loc. cbn [fst snd]. rewrite String.eqb_refl. cbn [negb orb]. cbn [px py rx_pt]. rewrite get_dist_real, geps_real, rx_leb.
  rewrite !rx_sub, !rx_mul, rx_sub, rx_abs. rewrite rdist_pdist. destruct (Rleb eps (pdist a b)) eqn:E; [|reflexivity].
  apply Rleb_true in E. assert (P := eps_pos). rewrite rx_div by lra. f_equal. f_equal. f_equal. unfold cross. ring.
Qed.
Lemma pdist_len2 a b : pdist a b * pdist a b = len2 a b.
Proof. rewrite pdist_sq, sqrt_sqrt by apply sq_pos. unfold sq, len2. ring. Qed.
Lemma line_exact l (a b c : pt) : eps <= pdist a b -> exists d, line_dist (loc l a) (loc l b) (loc l c) = Some d /\
  (exists k, d = pdist c (along a b k)) /\ (forall k, d <= pdist c (along a b k)).
Proof.
  intros H. rewrite line_dist_real, (proj2 (Rleb_true _ _) H). eexists. split; [reflexivity|]. assert (P := eps_pos).
  assert (L : 0 < len2 a b). { rewrite <- pdist_len2. nra. }
  assert (E : Rabs (cross a b c) / pdist a b = pdist c (along a b (proj_k a b c))).
  { rewrite (pdist_sq c). symmetry. apply sqrt_lem_1; [apply sq_pos|unfold Rdiv; apply Rmult_le_pos; [apply Rabs_pos|left; apply Rinv_0_lt_compat; lra]|].
    replace (Rabs (cross a b c) / pdist a b * (Rabs (cross a b c) / pdist a b)) with ((Rabs (cross a b c) * Rabs (cross a b c)) / (pdist a b * pdist a b)) by (field; lra).
    rewrite pdist_len2, <- Rabs_mult, Rabs_pos_eq by apply Rle_0_sqr.
    apply (Rmult_eq_reg_r (len2 a b)); [|lra]. unfold Rdiv. rewrite Rmult_assoc, Rinv_l, Rmult_1_r by lra.
    set (s := (fst c - fst a) * (fst b - fst a) + (snd c - snd a) * (snd b - snd a)).
    assert (Q : sq c (along a b (proj_k a b c)) = sq c a - 2 * (s / len2 a b) * s + (s / len2 a b) * (s / len2 a b) * len2 a b).
    { unfold proj_k. fold s. unfold sq, along, s, len2. cbn [fst snd]. ring. }
    rewrite Q. replace ((sq c a - 2 * (s / len2 a b) * s + s / len2 a b * (s / len2 a b) * len2 a b) * len2 a b) with (sq c a * len2 a b - s * s) by (field; lra).
    unfold sq, s, len2, cross. ring. }
  rewrite E. split; [exists (proj_k a b c); reflexivity|]. intros k. apply pdist_le. rewrite (@sq_along a b c k L).
  assert (X := Rle_0_sqr (k - proj_k a b c)). unfold Rsqr in X. nra.
Qed.
