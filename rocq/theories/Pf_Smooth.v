(** Proofs of C36-C38. *)
From Coq Require Import Reals Lra Lia Psatz.
From Verif Require Import Lib NumOrd NumReal LibR Smooth Spec_Smooth.
Set Implicit Arguments.
Local Open Scope R_scope.

(** ** C36 *)
Lemma gain_bounds {F} {NF : Num F} {NO : NumOrd F} (s : settings F) old new : s_accsmooth s = true ->
  ((max_alpha : F) <! min_alpha) = false ->
  (ab_gain s old new <! min_alpha) = false /\ (max_alpha <! ab_gain s old new) = false.
Proof.
  intros Ha H. unfold ab_gain. rewrite Ha. cbv zeta. set (na := p_dev old /! _). unfold fmin, fmax.
  destruct (min_alpha <! na) eqn:E1.
  - destruct (max_alpha <! na) eqn:E2; [split; [exact H|apply flt_irrefl]|]. split; [|exact E2].
    destruct (na <! min_alpha) eqn:E3; [|reflexivity]. assert (X := flt_trans _ _ _ E1 E3). rewrite flt_irrefl in X. discriminate.
  - rewrite H. split; [apply flt_irrefl|exact H].
Qed.
Lemma min_alpha_real : (min_alpha : RX) = Some (1 / 10). Proof. apply (@rx_lit 1 10). lra. Qed.
Lemma max_alpha_real : (max_alpha : RX) = Some (9 / 10). Proof. apply (@rx_lit 9 10). lra. Qed.
Lemma gain_const (s : settings RX) w (old new : position RX) : s_accsmooth s = false -> s_smoothing s = Some w ->
  ab_gain s old new = (Some (9 / 10 - 8 / 10 * Rmin 1 (Rmax 0 w)) : RX).
Proof.
  intros Ha Hw. unfold ab_gain. rewrite Ha. unfold ab_alpha, clamp01. cbv zeta.
  rewrite min_alpha_real, max_alpha_real, Hw, rx_f0, rx_f1, rx_fmax, rx_fmin, !rx_sub, !rx_mul, rx_add. f_equal. lra.
Qed.
Lemma gain_acc (s : settings RX) (old new : position RX) : s_accsmooth s = true -> exists g, ab_gain s old new = (Some g : RX) /\ 1 / 10 <= g <= 9 / 10 /\
  forall d e, p_dev old = Some d -> p_dev new = Some e -> 0 <= d -> 0 <= e -> g = Rmin (9 / 10) (Rmax (1 / 10) (d / (e + d + 1 / 2))).
Proof.
  intros Ha. unfold ab_gain. rewrite Ha. cbv zeta. rewrite min_alpha_real, max_alpha_real.
  set (na := p_dev old /! _). destruct na as [n|] eqn:En.
  - rewrite rx_fmax, rx_fmin. eexists. split; [reflexivity|]. split.
    + unfold Rmin, Rmax. destruct (Rle_dec (1 / 10) n), (Rle_dec _ (9 / 10)); lra.
    + intros d e Hd He H0 H1. subst na. rewrite Hd, He, !rx_add in En.
      assert (L : (lit 5 10 : RX) = Some (5 / 10)) by (apply (@rx_lit 5 10); lra). rewrite L, rx_add, rx_div in En by lra.
      injection En as <-. replace (5 / 10) with (1 / 2) by lra. apply Rmin_comm.
  - exists (1 / 10). split.
    { change (fmax (Some (1 / 10)) None : RX) with (Some (1 / 10) : RX). rewrite rx_fmin, Rmin_left by lra. reflexivity. }
    split; [lra|].
    intros d e Hd He H0 H1. exfalso. subst na. rewrite Hd, He, !rx_add in En.
    assert (L : (lit 5 10 : RX) = Some (5 / 10)) by (apply (@rx_lit 5 10); lra). rewrite L, rx_add, rx_div in En by lra. discriminate.
Qed.
Lemma gain_some (s : settings RX) w (old new : position RX) : s_smoothing s = Some w -> exists g, ab_gain s old new = (Some g : RX) /\ 1 / 10 <= g <= 9 / 10.
Proof.
  intros Hw. destruct (s_accsmooth s) eqn:E.
  - destruct (gain_acc s old new E) as (g & H1 & H2 & _). eauto.
  - rewrite (gain_const s old new E Hw). eexists. split; [reflexivity|].
    unfold Rmin, Rmax. destruct (Rle_dec 0 w); destruct (Rle_dec 1 _); lra.
Qed.
(** the smoother's decision, over any number type *)
Lemma ab_unfold {F} {NF : Num F} (s : settings F) al a p : (p_ts (ab_pos a) < p_ts p)%Z ->
  forall t g xp yp xs ys vx vy,
  t = fofZ (p_ts p - p_ts (ab_pos a)) /! fofZ 1000 -> g = ab_gain s (ab_pos a) p ->
  xp = p_x (ab_pos a) +! ab_vx a *! t -> yp = p_y (ab_pos a) +! ab_vy a *! t ->
  xs = xp +! g *! (p_x p -! xp) -> ys = yp +! g *! (p_y p -! yp) ->
  vx = ab_vx a +! ((g *! g /! (fofZ 2 -! g)) /! t) *! (p_x p -! xp) ->
  vy = ab_vy a +! ((g *! g /! (fofZ 2 -! g)) /! t) *! (p_y p -! yp) ->
  ab_smooth s al a p =
  if negb (ab_called a) || (fofZ 10 <! t) || (s_speedcon s && (fofZ 4 <! fsqrt (vx *! vx +! vy *! vy))) ||
     (s_barriers s && negb (al xs ys)) then (mkAB true f0 f0 p, p)
  else
    let p := if fisfinite xs && fisfinite ys then pos_set_xy p xs ys else p in
    let np := if s_accsmooth s then pos_set_dev p ((f1 -! g) *! (p_dev p +! t *! fsqrt (vx *! vx +! vy *! vy)) +! g *! p_dev p) else p in
    (mkAB (ab_called a) vx vy np, np).
Proof.
  intros H t g xp yp xs ys vx vy -> -> -> -> -> -> -> ->. unfold ab_smooth. rewrite (proj2 (Z.ltb_lt _ _) H). reflexivity.
Qed.
Theorem ab_step (s : settings RX) w al (a : absm RX) (p : position RX) x y vx vy mx my : s_smoothing s = Some w -> ab_state a x y vx vy -> at_point p mx my ->
  ((p_ts p <= p_ts (ab_pos a))%Z /\ ab_smooth s al a p = (a, ab_pos a)) \/
  ((p_ts (ab_pos a) < p_ts p)%Z /\
   exists g, ab_gain s (ab_pos a) p = Some g /\ 1 / 10 <= g <= 9 / 10 /\
   let t := IZR (p_ts p - p_ts (ab_pos a)) / 1000 in
   let X := blend g (x + vx * t) mx in let Y := blend g (y + vy * t) my in
   let VX := correct_speed g t vx (x + vx * t) mx in let VY := correct_speed g t vy (y + vy * t) my in
   let ok := ab_called a = true /\ t <= 10 /\ (s_speedcon s = true -> sqrt (speed2 VX VY) <= 4) /\
             (s_barriers s = true -> al (Some X) (Some Y) = true) in
   (ok -> exists r, ab_smooth s al a p = (mkAB true (Some VX) (Some VY) r, r) /\ at_point r X Y /\ p_ts r = p_ts p /\
      p_level r = p_level p /\ p_empty r = p_empty p /\
      forall d, p_dev p = Some d -> p_dev r = Some (if s_accsmooth s then d + (1 - g) * (t * sqrt (speed2 VX VY)) else d)) /\
   (~ ok -> ab_smooth s al a p = (mkAB true (Some 0) (Some 0) p, p))).
Proof.
  intros Hw ((A1 & A2) & A3 & A4) (M1 & M2). destruct (Z.le_gt_cases (p_ts p) (p_ts (ab_pos a))) as [H|H].
  { left. split; [exact H|]. unfold ab_smooth. destruct (Z.ltb_spec (p_ts (ab_pos a)) (p_ts p)); [lia|reflexivity]. }
  right. split; [exact H|]. destruct (gain_some s (ab_pos a) p Hw) as (g & Hg & Bg). exists g. split; [exact Hg|]. split; [exact Bg|].
  set (t := IZR (p_ts p - p_ts (ab_pos a)) / 1000).
  assert (Ht : 0 < t). { unfold t. assert (0 < IZR (p_ts p - p_ts (ab_pos a))) by (apply IZR_lt; lia). lra. }
  set (X := blend g (x + vx * t) mx). set (Y := blend g (y + vy * t) my).
  set (VX := correct_speed g t vx (x + vx * t) mx). set (VY := correct_speed g t vy (y + vy * t) my).
  assert (Et : fofZ (p_ts p - p_ts (ab_pos a)) /! fofZ 1000 = (Some t : RX)) by (apply (@rx_div _ 1000); lra).
  assert (B : (Some g : RX) *! Some g /! (fofZ 2 -! (Some g : RX)) /! Some t = Some (g * g / (2 - g) / t)).
  { rewrite rx_ofZ, rx_mul, rx_sub, rx_div by lra. apply rx_div. lra. }
  assert (Sq : 0 <= speed2 VX VY) by (unfold speed2; nra).
  assert (E := @ab_unfold RX _ s al a p H (Some t) (Some g) (Some (x + vx * t)) (Some (y + vy * t)) (Some X) (Some Y) (Some VX) (Some VY)).
  assert (E' := E (eq_sym Et) (eq_sym Hg)). clear E.
  rewrite A1, A2, A3, A4, M1, M2, B in E'. rewrite !rx_mul, !rx_add, !rx_sub, !rx_mul, !rx_add in E'.
  specialize (E' eq_refl eq_refl).
  assert (EX : Some X = (Some (x + vx * t + g * (mx - (x + vx * t))) : RX)) by (unfold X, blend; f_equal; ring).
  assert (EY : Some Y = (Some (y + vy * t + g * (my - (y + vy * t))) : RX)) by (unfold Y, blend; f_equal; ring).
  specialize (E' EX EY eq_refl eq_refl).
  assert (ES : fsqrt (Some (VX * VX + VY * VY) : RX) = Some (sqrt (speed2 VX VY))) by (apply rx_sqrt; exact Sq).
  rewrite ES, !rx_ofZ, !rx_ltb in E'. rewrite E'. clear E' ES EX EY B.
  split.
  - intros (O1 & O2 & O3 & O4). rewrite O1. cbn [negb orb].
    destruct (Rltb 10 t) eqn:E1; [apply Rltb_true in E1; lra|].
    assert (E2 : s_speedcon s && Rltb 4 (sqrt (speed2 VX VY)) = false).
    { destruct (s_speedcon s); [|reflexivity]. cbn. apply Rltb_false. apply O3. reflexivity. }
    assert (E3 : s_barriers s && negb (al (Some X) (Some Y)) = false).
    { destruct (s_barriers s); [|reflexivity]. cbn [andb]. apply negb_false_iff, O4. reflexivity. }
    rewrite E2, E3. cbn [orb]. cbv zeta. change (fisfinite (Some X : RX) && fisfinite (Some Y : RX)) with true. cbv iota.
    eexists. split; [reflexivity|]. destruct (s_accsmooth s); (split; [split; reflexivity|]); (split; [reflexivity|]); (split; [reflexivity|]); (split; [reflexivity|]);
    intros d Hd; cbn [p_dev pos_set_dev pos_set_xy]; rewrite Hd; [|reflexivity].
    rewrite rx_f1, rx_sub, !rx_mul, !rx_add, !rx_mul, rx_add. f_equal. fold VX VY. ring.
  - intros O. match goal with |- (if ?b then _ else _) = _ => destruct b eqn:Eb; [rewrite rx_f0; reflexivity|] end.
    exfalso. apply O. apply orb_false_iff in Eb. destruct Eb as [Eb E4]. apply orb_false_iff in Eb. destruct Eb as [Eb E3].
    apply orb_false_iff in Eb. destruct Eb as [E1 E2]. apply negb_false_iff in E1. apply Rltb_false in E2.
    split; [exact E1|]. split; [exact E2|]. split.
    + intros Hs. rewrite Hs in E3. apply Rltb_false in E3. exact E3.
    + intros Hs. rewrite Hs in E4. apply negb_false_iff in E4. exact E4.
Qed.
Lemma sqrt_le4 v : 0 <= v -> sqrt v <= 4 -> v <= 16.
Proof. intros H D. rewrite <- (sqrt_sqrt v H). assert (0 <= sqrt v) by apply sqrt_pos. nra. Qed.
Lemma ab_good_step (s : settings RX) w al (a : absm RX) (p : position RX) : s_smoothing s = Some w -> ab_good s a -> real_point p -> ab_good s (fst (ab_smooth s al a p)) /\
  real_point (snd (ab_smooth s al a p)).
Proof.
  intros Hw (x & y & vx & vy & Hs & Hv) (mx & my & Hp).
  destruct (@ab_step s w al a p x y vx vy mx my Hw Hs Hp) as [[_ ->]|(_ & g & _ & Hg & H)].
  - cbn [fst snd]. split; [exists x, y, vx, vy; auto|]. exists x, y. apply Hs.
  - cbv zeta in H. destruct H as [H1 H2].
    match type of H1 with ?P -> _ => assert (D : P \/ ~ P) end.
    { destruct (ab_called a); [|right; intros [X _]; discriminate].
      set (t := IZR _ / 1000). set (VX := correct_speed g t vx _ _). set (VY := correct_speed g t vy _ _).
      destruct (Rle_dec t 10) as [D1|D1]; [|right; tauto].
      destruct (s_speedcon s).
      - destruct (Rle_dec (sqrt (speed2 VX VY)) 4) as [D2|D2]; [|right; intros (_ & _ & X & _); apply D2, X; reflexivity].
        destruct (s_barriers s); [|left; repeat split; auto; discriminate].
        match goal with |- context [al ?u ?v] => destruct (al u v) end; [left; auto|right; intros (_ & _ & _ & X); specialize (X eq_refl); discriminate].
      - destruct (s_barriers s); [|left; repeat split; auto; discriminate].
        match goal with |- context [al ?u ?v] => destruct (al u v) end; [left; repeat split; auto; discriminate|right; intros (_ & _ & _ & X); specialize (X eq_refl); discriminate]. }
    destruct D as [D|D].
    + destruct (H1 D) as (r & -> & Hr & _). cbn [fst snd]. split; [|eexists; eexists; exact Hr].
      do 4 eexists. split; [split; [exact Hr|split; reflexivity]|]. intros Hsp.
      destruct D as (_ & _ & D & _). specialize (D Hsp).
      revert D. match goal with |- sqrt ?v <= 4 -> _ => assert (Hv0 : 0 <= v) by (unfold speed2; nra) end.
      apply sqrt_le4; exact Hv0.
    + rewrite (H2 D). cbn [fst snd]. split; [|exists mx, my; exact Hp].
      exists mx, my, 0, 0. split; [split; [exact Hp|split; reflexivity]|]. intros _. unfold speed2. lra.
Qed.
Lemma ab_good0 s : ab_good s ab0.
Proof. exists 0, 0, 0, 0. split; [repeat split|]. intros _. unfold speed2. lra. Qed.
Theorem ab_history (s : settings RX) w ops : s_smoothing s = Some w -> forall a, ab_good s a -> Forall (fun o => real_point (abop_pos o)) ops ->
  ab_good s (fst (ab_run s a ops)) /\ Forall real_point (snd (ab_run s a ops)).
Proof.
  intros Hw. induction ops as [|o t IH]; intros a Ha Ho; [split; [exact Ha|constructor]|].
  assert (Ht := Forall_inv_tail Ho). apply Forall_inv in Ho. destruct o as [al p|p]; cbn [ab_run abop_pos] in *.
  - destruct (@ab_good_step s w al a p Hw Ha Ho) as [A B]. destruct (ab_smooth s al a p) as [a1 r]. cbn [fst snd] in *.
    destruct (IH a1 A Ht) as [C D]. destruct (ab_run s a1 t) as [a2 rs]. cbn [fst snd] in *. split; [exact C|constructor; assumption].
  - apply IH; [|exact Ht]. destruct Ho as (x & y & Hp). exists x, y, 0, 0. split; [split; [exact Hp|split; apply rx_f0]|].
    intros _. unfold speed2. lra.
Qed.

(** ** C37 *)
Definition tm_inv (h : list (position RX)) (T : Z) (m : tsm RX) : Prop :=
  m = tsm0 \/
  (In (tm_prev m) h /\ In (tm_next m) h /\ (p_ts (tm_prev m) <= p_ts (tm_next m) <= T)%Z /\
   p_empty (tm_prev m) = false /\ p_empty (tm_next m) = false /\
   p_level (tm_prev m) <> ""%string /\ p_level (tm_next m) <> ""%string /\
   real_point (tm_prev m) /\ real_point (tm_next m)).
Lemma tm_inv_step h T m p ts : tm_inv h T m -> p_empty p = false -> p_level p <> ""%string -> real_point p -> (T <= ts)%Z ->
  tm_inv (p :: h) ts (fst (time_smooth m p ts)).
Proof.
  intros I Hp Hl Hr Ht.
  assert (W : tm_inv (p :: h) ts m).
  { destruct I as [I|(A & B & C & D)]; [left; exact I|right]. split; [right; exact A|]. split; [right; exact B|]. split; [lia|exact D]. }
  unfold time_smooth. destruct (Z.ltb_spec ts (p_ts p)); [exact W|].
  destruct (_ || _) eqn:E1.
  { cbn [fst]. right. cbn [tm_prev tm_next]. repeat split; auto using in_eq; lia. }
  apply orb_false_iff in E1. destruct E1 as [E1 E2]. apply negb_false_iff, String.eqb_eq in E1, E2.
  destruct I as [->|(A & B & C & D1 & D2 & L1 & L2 & R1 & R2)]; [cbn in E1; congruence|].
  rewrite D1, D2, Hp. cbn [orb]. cbv zeta.
  set (m1 := if (p_ts (tm_next m) <? p_ts p)%Z then _ else m).
  assert (X : tm_inv (p :: h) ts m1).
  { unfold m1. destruct (Z.ltb_spec (p_ts (tm_next m)) (p_ts p)); [|exact W]. right. cbn [tm_prev tm_next].
    repeat split; auto using in_eq, in_cons; lia. }
  destruct (_ =? _)%Z; [exact X|]. destruct (_ <! _); exact X.
Qed.
Lemma tm_inv_reach h T m : time_reach h T m -> tm_inv h T m.
Proof. induction 1; [left; reflexivity|]. apply tm_inv_step with (T := T); assumption. Qed.
Theorem time_interpolates h T m p ts : time_reach h T m -> p_empty p = false -> p_level p <> ""%string -> real_point p -> (T <= ts)%Z ->
  let q := snd (time_smooth m p ts) in
  q = p \/ exists a b w, In a (p :: h) /\ In b (p :: h) /\ p_level a = p_level p /\ p_level b = p_level p /\
    (p_ts a <= p_ts b)%Z /\ (p_ts p <= p_ts b)%Z /\ (p_ts b <= ts)%Z /\ 0 <= w <= 1 /\
    on_segment a b q w /\ p_level q = p_level p /\ p_empty q = false /\
    ((p_ts a < p_ts b)%Z -> w = IZR (ts - p_ts b) / IZR (p_ts b - p_ts a) /\ p_ts q = ts).
Proof.
  intros R Hp Hl Hr Ht q. apply tm_inv_reach in R. subst q. unfold time_smooth.
  destruct (Z.ltb_spec ts (p_ts p)); [left; reflexivity|].
  destruct (_ || _) eqn:E1; [left; reflexivity|].
  apply orb_false_iff in E1. destruct E1 as [E1 E2]. apply negb_false_iff, String.eqb_eq in E1, E2.
  destruct R as [->|(A & B & C & D1 & D2 & L1 & L2 & R1 & R2)]; [cbn in E1; congruence|].
  rewrite D1, D2, Hp. cbn [orb]. cbv zeta.
  set (m1 := if (p_ts (tm_next m) <? p_ts p)%Z then _ else m).
  assert (X : In (tm_prev m1) (p :: h) /\ In (tm_next m1) (p :: h) /\ (p_ts (tm_prev m1) <= p_ts (tm_next m1) <= ts)%Z /\
     (p_ts p <= p_ts (tm_next m1))%Z /\ p_level (tm_prev m1) = p_level p /\ p_level (tm_next m1) = p_level p /\
     p_empty (tm_next m1) = false /\ real_point (tm_prev m1) /\ real_point (tm_next m1)).
  { unfold m1. destruct (Z.ltb_spec (p_ts (tm_next m)) (p_ts p)); cbn [tm_prev tm_next];
    repeat split; auto using in_eq, in_cons; lia. }
  clearbody m1. destruct X as (X1 & X2 & X3 & X4 & X5 & X6 & X7 & (ax & ay & Xa) & (bx & by_ & Xb)).
  destruct (Z.eqb_spec (p_ts (tm_next m1)) (p_ts (tm_prev m1))) as [E|E].
  - right. exists (tm_prev m1), (tm_next m1), 1. cbn [snd]. do 4 (split; [assumption|]). split; [lia|]. split; [lia|]. split; [lia|].
    split; [lra|]. split; [|repeat split; auto; lia].
    exists ax, ay, bx, by_. split; [exact Xa|]. split; [exact Xb|]. destruct Xb as [Eb1 Eb2]. unfold at_point. rewrite Eb1, Eb2. split; f_equal; ring.
  - rewrite !rx_ofZ, rx_ltb. set (act := IZR (ts - p_ts (tm_next m1))). set (kept := IZR (p_ts (tm_next m1) - p_ts (tm_prev m1))).
    assert (Hk : 0 < kept) by (apply IZR_lt; lia). assert (Ha : 0 <= act) by (apply IZR_le; lia).
    destruct (Rltb kept act) eqn:El; [left; reflexivity|]. apply Rltb_false in El. cbn [snd].
    right. exists (tm_prev m1), (tm_next m1), (act / kept). do 4 (split; [assumption|]). split; [lia|]. split; [lia|]. split; [lia|].
    split.
    { split; [apply Rmult_le_pos; [exact Ha|left; apply Rinv_0_lt_compat; exact Hk]|].
      apply Rmult_le_reg_r with kept; [exact Hk|]. unfold Rdiv. rewrite Rmult_assoc, Rinv_l by lra. lra. }
    split; [|repeat split; auto].
    exists ax, ay, bx, by_. split; [exact Xa|]. split; [exact Xb|]. destruct Xa as [Ea1 Ea2], Xb as [Eb1 Eb2].
    unfold at_point. cbn [pos_set_ts pos_set_xy p_x p_y]. rewrite Ea1, Ea2, Eb1, Eb2, !rx_sub, !rx_mul, !rx_add, !rx_div by lra.
    split; f_equal; field; lra.
Qed.

(** ** C38 *)
Section Solve.
Context {F : Type} {NF : Num F}.
Lemma solve2 (E : nat -> nat -> F) :
  let n := fsqrt (E 0 0 *! E 0 0 +! E 1 0 *! E 1 0)%nat in
  let c := E 0%nat 0%nat /! n in let s := E 1%nat 0%nat /! n in
  let x1 := (c *! E 1%nat 2%nat -! s *! E 0%nat 2%nat) /! (c *! E 1%nat 1%nat -! s *! E 0%nat 1%nat) in
  let x0 := ((s *! E 1%nat 2%nat +! c *! E 0%nat 2%nat) -! (s *! E 1%nat 1%nat +! c *! E 0%nat 1%nat) *! x1) /!
            (s *! E 1%nat 0%nat +! c *! E 0%nat 0%nat) in
  solve_linear 2 E 0 = x0 /\ solve_linear 2 E 1 = x1.
Proof. split; reflexivity. Qed.
End Solve.
Definition S0 (ps : list (R * R)) := rsum (map (fun _ => 1) ps).
Definition S1 (ps : list (R * R)) := rsum (map (fun p => fst p) ps).
Definition S2 (ps : list (R * R)) := rsum (map (fun p => fst p * fst p) ps).
Definition B0 (ps : list (R * R)) := rsum (map (fun p => snd p) ps).
Definition B1 (ps : list (R * R)) := rsum (map (fun p => fst p * snd p) ps).
Definition YY (ps : list (R * R)) := rsum (map (fun p => snd p * snd p) ps).
Lemma ssr_expand a b ps : ssr a b ps = YY ps - 2 * a * B0 ps - 2 * b * B1 ps + a * a * S0 ps + 2 * a * b * S1 ps + b * b * S2 ps.
Proof. unfold ssr, YY, B0, B1, S0, S1, S2. induction ps as [|p t IH]; cbn [map]; rewrite ?rsum_nil, ?rsum_cons; [ring|]. rewrite IH. ring. Qed.
Lemma lin_expand a b ps : rsum (map (fun p => (a + b * fst p) * (a + b * fst p)) ps) = a * a * S0 ps + 2 * a * b * S1 ps + b * b * S2 ps.
Proof. unfold S0, S1, S2. induction ps as [|p t IH]; cbn [map]; rewrite ?rsum_nil, ?rsum_cons; [ring|]. rewrite IH. ring. Qed.
Lemma sum_sq_pos {A : Type} (g : A -> R) l x : In x l -> g x <> 0 -> 0 < rsum (map (fun x => g x * g x) l).
Proof.
  intros H Hn. induction l as [|y t IH]; [destruct H|]. cbn [map]. rewrite rsum_cons.
  assert (P : 0 <= rsum (map (fun x => g x * g x) t)).
  { apply rsum_nonneg. intros z Hz. apply in_map_iff in Hz. destruct Hz as (w & <- & _). apply Rle_0_sqr. }
  destruct H as [->|H]; [nra|]. specialize (IH H). nra.
Qed.
Lemma S0_len ps : S0 ps = INR (List.length ps).
Proof. unfold S0. induction ps as [|p t IH]; cbn [map List.length]; [rewrite rsum_nil; reflexivity|]. rewrite rsum_cons, IH, S_INR. ring. Qed.
Lemma lin_pos a b ps : two_times ps -> a <> 0 \/ b <> 0 -> 0 < a * a * S0 ps + 2 * a * b * S1 ps + b * b * S2 ps.
Proof.
  intros (p & q & Hp & Hq & Hn) H. rewrite <- lin_expand.
  destruct (Req_dec (a + b * fst p) 0) as [E|E].
  - apply (@sum_sq_pos _ (fun p => a + b * fst p) ps q Hq). intros E2.
    assert (b * (fst p - fst q) = 0) by lra. destruct (Rmult_integral _ _ H0) as [Hb|Hb]; [|lra].
    subst b. destruct H as [H|H]; [apply H; lra|apply H; reflexivity].
  - apply (@sum_sq_pos _ (fun p => a + b * fst p) ps p Hp). exact E.
Qed.
Lemma det_pos ps : two_times ps -> 0 < S0 ps /\ 0 < S0 ps * S2 ps - S1 ps * S1 ps.
Proof.
  intros H. assert (A := @lin_pos 1 0 ps H ltac:(left; lra)). assert (P : 0 < S0 ps) by lra. split; [exact P|].
  assert (B := @lin_pos (- S1 ps) (S0 ps) ps H ltac:(right; lra)).
  assert (E : - S1 ps * - S1 ps * S0 ps + 2 * - S1 ps * S0 ps * S1 ps + S0 ps * S0 ps * S2 ps = S0 ps * (S0 ps * S2 ps - S1 ps * S1 ps)) by ring.
  rewrite E in B. nra.
Qed.
Lemma two_times_len ps : two_times ps -> (2 <= List.length ps)%nat.
Proof.
  intros (p & q & Hp & Hq & Hn). destruct ps as [|a [|b t]]; cbn; [destruct Hp| |lia].
  destruct Hp as [->|[]], Hq as [->|[]]. congruence.
Qed.

Lemma pf_sub_real ps i : pf_sub (map (fun p => Some (fst p)) ps) i = (Some (rsum (map (fun p : R * R => fst p ^ i) ps)) : RX).
Proof.
  unfold pf_sub. rewrite (@fsum_real _ (fun x : RX => fpowi x i) (fun x => rval x ^ i)).
  - f_equal. rewrite map_map. reflexivity.
  - intros x Hx. apply in_map_iff in Hx. destruct Hx as (p & <- & _). reflexivity.
Qed.
Lemma combine_map {A B C : Type} (f : A -> B) (g : A -> C) l : combine (map f l) (map g l) = map (fun x => (f x, g x)) l.
Proof. induction l as [|x t IH]; cbn; [reflexivity|rewrite IH; reflexivity]. Qed.
Lemma pf_b_real ps i : pf_b (map (fun p => Some (fst p)) ps) (map (fun p => Some (snd p)) ps) i =
  (Some (rsum (map (fun p : R * R => fst p ^ i * snd p) ps)) : RX).
Proof.
  unfold pf_b. rewrite combine_map. rewrite (@fsum_real _ _ (fun xy => rval (fst xy) ^ i * rval (snd xy))).
  - f_equal. rewrite map_map. reflexivity.
  - intros x Hx. apply in_map_iff in Hx. destruct Hx as (p & <- & _). reflexivity.
Qed.
Lemma rsum_ext {A : Type} (f g : A -> R) l : (forall x, f x = g x) -> rsum (map f l) = rsum (map g l).
Proof. intros H. induction l as [|x t IH]; cbn [map]; rewrite ?rsum_cons, ?IH, ?H; reflexivity. Qed.
Section Fit.
Variable ps : list (R * R).
Let xs : list RX := map (fun p => Some (fst p)) ps.
Let ys : list RX := map (fun p => Some (snd p)) ps.
Lemma matrix2 : let E := pf_matrix 2 xs ys in
  E 0%nat 0%nat = Some (S0 ps) /\ E 0%nat 1%nat = Some (S1 ps) /\ E 1%nat 0%nat = Some (S1 ps) /\ E 1%nat 1%nat = Some (S2 ps) /\
  E 0%nat 2%nat = Some (B0 ps) /\ E 1%nat 2%nat = Some (B1 ps).
Proof.
  cbv zeta. unfold pf_matrix, xs, ys. cbn [Nat.eqb Nat.add].
  rewrite !pf_sub_real, !pf_b_real. unfold S0, S1, S2, B0, B1.
  repeat split; f_equal; apply rsum_ext; intros; cbn [pow]; ring.
Qed.
Lemma fit2 (c : pfconf RX) : pc_power c = 1%nat -> two_times ps ->
  let D := S0 ps * S2 ps - S1 ps * S1 ps in
  ls_coeff c xs ys = [Some ((B0 ps * S2 ps - B1 ps * S1 ps) / D); Some ((S0 ps * B1 ps - S1 ps * B0 ps) / D)].
Proof.
  intros Hc Ht D. destruct (det_pos Ht) as [P0 PD]. fold D in PD. unfold ls_coeff. rewrite Hc. cbn [seq map].
  destruct (solve2 (pf_matrix 2 xs ys)) as [E0 E1]. cbv zeta in E0, E1. rewrite E0, E1. clear E0 E1.
  destruct matrix2 as (M1 & M2 & M3 & M4 & M5 & M6). rewrite M1, M2, M3, M4, M5, M6.
  assert (Hn : 0 < S0 ps * S0 ps + S1 ps * S1 ps) by nra.
  rewrite !rx_mul, rx_add, rx_sqrt by lra. set (n := sqrt (S0 ps * S0 ps + S1 ps * S1 ps)).
  assert (Pn : 0 < n) by (apply sqrt_lt_R0; exact Hn).
  assert (Qn : n * n = S0 ps * S0 ps + S1 ps * S1 ps) by (apply sqrt_sqrt; lra).
  rewrite !rx_div by lra. rewrite !rx_mul, !rx_sub, !rx_add.
  assert (X1 : S0 ps / n * S2 ps - S1 ps / n * S1 ps = D / n) by (unfold D; field; lra).
  assert (X0 : S1 ps / n * S1 ps + S0 ps / n * S0 ps = n).
  { apply Rmult_eq_reg_r with n; [|lra]. rewrite Qn. field. lra. }
  rewrite X1, X0. assert (PDn : D / n <> 0) by (apply Rgt_not_eq; apply Rdiv_lt_0_compat; lra).
  rewrite (@rx_div _ (D / n)) by exact PDn. rewrite rx_mul, rx_sub, rx_div by lra.
  assert (Y1 : (S0 ps / n * B1 ps - S1 ps / n * B0 ps) / (D / n) = (S0 ps * B1 ps - S1 ps * B0 ps) / D) by (field; lra).
  rewrite Y1. f_equal. f_equal.
  apply Rmult_eq_reg_r with (D * (n * n)); [|apply Rgt_not_eq; apply Rmult_lt_0_compat; [lra|nra]].
  replace ((S1 ps / n * B1 ps + S0 ps / n * B0 ps - (S1 ps / n * S2 ps + S0 ps / n * S1 ps) * ((S0 ps * B1 ps - S1 ps * B0 ps) / D)) / n * (D * (n * n)))
    with ((S1 ps * B1 ps + S0 ps * B0 ps) * D - (S1 ps * S2 ps + S0 ps * S1 ps) * (S0 ps * B1 ps - S1 ps * B0 ps)) by (field; lra).
  replace ((B0 ps * S2 ps - B1 ps * S1 ps) / D * (D * (n * n))) with ((B0 ps * S2 ps - B1 ps * S1 ps) * (n * n)) by (field; lra).
  rewrite Qn. unfold D. ring.
Qed.
End Fit.

Lemma best_line a b ps a' b' : S0 ps * a + S1 ps * b = B0 ps -> S1 ps * a + S2 ps * b = B1 ps ->
  ssr a' b' ps = ssr a b ps + ((a' - a) * (a' - a) * S0 ps + 2 * (a' - a) * (b' - b) * S1 ps + (b' - b) * (b' - b) * S2 ps).
Proof. intros H1 H2. rewrite !ssr_expand, <- H1, <- H2. ring. Qed.

(** the samples of a reachable fit, and that its coefficients belong to them *)
Definition pf_ok (c : pfconf RX) (f : polyfit RX) : Prop :=
  exists ps, window_of f ps /\ ((2 <= List.length ps)%nat -> pf_coeff f = ls_coeff c (pf_x f) (pf_y f)).
Lemma remove_old_suffix {F} {NF : Num F} int bx : forall xs ys xs' ys' : list F, List.length xs = List.length ys ->
  remove_old int bx xs ys = Ok (xs', ys') ->
  exists n, xs' = skipn n xs /\ ys' = skipn n ys.
Proof.
  induction xs as [|x xt IH]; intros [|y yt] xs' ys' Hl H; cbn [remove_old] in H; try discriminate.
  destruct (int <! _).
  - injection Hl as Hl. destruct (IH _ _ _ Hl H) as (n & -> & ->). exists (S n). auto.
  - injection H as <- <-. exists 0%nat. auto.
Qed.
Lemma skipn_map {A B : Type} (f : A -> B) n l : skipn n (map f l) = map f (skipn n l).
Proof. revert l; induction n as [|n IH]; intros [|x t]; cbn; auto. Qed.
Lemma pf_add_cases {F} {NF : Num F} (c : pfconf F) f x y f' : pf_add c f x y = Ok f' ->
  (exists xs ys, remove_old (pc_int c) x (pf_x f ++ [x]) (pf_y f ++ [y]) = Ok (xs, ys) /\ pf_x f' = xs /\ pf_y f' = ys /\
     ((pc_power c < List.length ys)%nat -> pf_coeff f' = ls_coeff c xs ys)) \/
  (pf_y f <> [] /\ pf_x f' = pf_x f /\ pf_y f' = pf_y f /\ pf_coeff f' = pf_coeff f /\ pf_last f' = pf_last f).
Proof.
  unfold pf_add. destruct (match back (pf_y f) with None => true | Some l => fneb l y end) eqn:E.
  - intros H. inv_bind H. destruct a as [xs ys]. injection Hb as <-. left. exists xs, ys. cbn [pf_x pf_y pf_coeff].
    repeat split; auto. intros Hl. apply Nat.ltb_lt in Hl. rewrite Hl. reflexivity.
  - intros H. injection H as <-. right. destruct (pf_y f) eqn:Ey; [discriminate|]. cbn. repeat split; auto. discriminate.
Qed.
Lemma pf_ok_reach ord c f : pc_power c = 1%nat -> pf_reach ord c f -> pf_ok c f.
Proof.
  intros Hc. induction 1 as [|f x y f' R IH Ho H|f R IH|f t R IH].
  - exists []. split; [split; reflexivity|]. cbn. lia.
  - destruct IH as (ps & (Wx & Wy) & Hco). apply pf_add_cases in H. destruct H as [(xs & ys & E & Ex & Ey & Ec)|(Hne & E1 & E2 & E3 & _)].
    + apply remove_old_suffix in E; [|rewrite !app_length, Wx, Wy, !map_length; reflexivity].
      destruct E as (n & -> & ->).
      exists (skipn n (ps ++ [(x, y)])). split.
      * split; [rewrite Ex, Wx|rewrite Ey, Wy]; rewrite <- skipn_map, map_app; reflexivity.
      * rewrite Ex, Ey, Hc in *. intros Hl. apply Ec. rewrite skipn_length, app_length in *. rewrite Wy, map_length. cbn [List.length] in *. lia.
    + exists ps. split; [split; congruence|]. rewrite E1, E2, E3. exact Hco.
  - exists []. split; [split; reflexivity|]. cbn. lia.
  - destruct IH as (ps & (Wx & Wy) & Hco). exists ps. unfold pf_predict. destruct (Nat.eqb _ 0); cbn; split; auto; split; auto.
Qed.
Theorem fit_correct ord c f ps : pc_power c = 1%nat -> pf_reach ord c f -> window_of f ps -> two_times ps ->
  exists a b, pf_coeff f = [Some a; Some b] /\
    (forall a' b', ssr a b ps <= ssr a' b' ps) /\
    (forall a' b', ssr a' b' ps <= ssr a b ps -> a' = a /\ b' = b).
Proof.
  intros Hc R (Wx & Wy) Ht. destruct (pf_ok_reach Hc R) as (ps' & (Wx' & Wy') & Hco).
  assert (Hl : List.length ps = List.length ps') by (rewrite Wx' in Wx; apply (f_equal (@List.length _)) in Wx; rewrite !map_length in Wx; auto).
  rewrite Hco by (rewrite <- Hl; apply two_times_len, Ht). rewrite Wx, Wy.
  destruct (det_pos Ht) as [P0 PD]. rewrite (fit2 _ Hc Ht). set (D := S0 ps * S2 ps - S1 ps * S1 ps) in *.
  set (a := (B0 ps * S2 ps - B1 ps * S1 ps) / D). set (b := (S0 ps * B1 ps - S1 ps * B0 ps) / D).
  assert (N1 : S0 ps * a + S1 ps * b = B0 ps) by (unfold a, b; apply Rmult_eq_reg_r with D; [|lra]; field_simplify; [unfold D; ring|lra]).
  assert (N2 : S1 ps * a + S2 ps * b = B1 ps) by (unfold a, b; apply Rmult_eq_reg_r with D; [|lra]; field_simplify; [unfold D; ring|lra]).
  exists a, b. split; [reflexivity|]. split; intros a' b'.
  - rewrite (best_line ps a' b' N1 N2), <- lin_expand.
    assert (P : 0 <= rsum (map (fun p => (a' - a + (b' - b) * fst p) * (a' - a + (b' - b) * fst p)) ps)).
    { apply rsum_nonneg. intros z Hz. apply in_map_iff in Hz. destruct Hz as (w & <- & _). apply Rle_0_sqr. }
    lra.
  - rewrite (best_line ps a' b' N1 N2). intros H.
    destruct (Req_dec (a' - a) 0) as [Ea|Ea]; destruct (Req_dec (b' - b) 0) as [Eb|Eb]; [split; lra|..];
    exfalso; assert (X := @lin_pos (a' - a) (b' - b) ps Ht ltac:(tauto)); lra.
Qed.
Theorem collinear ord c f ps q m : pc_power c = 1%nat -> pf_reach ord c f -> window_of f ps -> two_times ps ->
  Forall (fun p => snd p = q + m * fst p) ps -> pf_coeff f = [Some q; Some m].
Proof.
  intros Hc R W Ht Hl. destruct (fit_correct Hc R W Ht) as (a & b & E & _ & Hu). rewrite E.
  assert (Z : ssr q m ps = 0).
  { unfold ssr. clear - Hl. induction ps as [|p t IH]; cbn [map]; [apply rsum_nil|]. rewrite rsum_cons.
    assert (Ht := Forall_inv_tail Hl). apply Forall_inv in Hl. rewrite IH by exact Ht. rewrite Hl. ring. }
  assert (P : 0 <= ssr a b ps).
  { unfold ssr. apply rsum_nonneg. intros z Hz. apply in_map_iff in Hz. destruct Hz as (w & <- & _). apply Rle_0_sqr. }
  destruct (Hu q m) as [-> ->]; [lra|reflexivity].
Qed.
(** the prediction *)
Theorem predict_value (c : pfconf RX) (f : polyfit RX) ps a b last w sh t : pc_power c = 1%nat -> window_of f ps -> (2 <= List.length ps)%nat ->
  pf_coeff f = [Some a; Some b] -> pf_last f = Some last -> pc_weight c = Some w -> pc_shift c = Some sh ->
  snd (pf_predict c f (Some t : RX)) = Some (w * (a + b * (t - sh)) + (1 - w) * last) /\
  pf_last (fst (pf_predict c f (Some t : RX))) = Some (w * (a + b * (t - sh)) + (1 - w) * last).
Proof.
  intros Hc (Wx & Wy) Hl Hco La Hw Hs. unfold pf_predict. rewrite Wy, map_length, Hc, La, Hw.
  destruct (Nat.eqb_spec (List.length ps) 0); [lia|]. destruct (Nat.eqb_spec (List.length ps) 1); [lia|].
  destruct (Nat.ltb_spec (List.length ps) 2); [lia|]. cbn [orb].
  unfold ls_solution. rewrite Hco, Hs, Hc. cbn [seq fold_left nth].
  rewrite rx_sub, !rx_powi, rx_f0, rx_f1, !rx_sub, !rx_mul, !rx_add, !rx_mul, !rx_add. cbn [fst snd pf_last pow].
  split; f_equal; ring.
Qed.
Theorem predict_single (c : pfconf RX) (f : polyfit RX) x y t : window_of f [(x, y)] -> defined (pc_shift c) ->
  snd (pf_predict c f (Some t : RX)) = Some y.
Proof.
  intros (Wx & Wy) [sh Hs]. unfold pf_predict. rewrite Wy, Wx. cbn [map List.length Nat.eqb orb fst snd].
  unfold lagrange. rewrite Hs. cbn [List.length seq fold_left nth Nat.eqb negb]. rewrite rx_f0, rx_f1, rx_mul, rx_add. f_equal. ring.
Qed.
(** window *)
Lemma window_snoc (f : polyfit RX) ps x y : window_of f ps ->
  pf_x f ++ [(Some x : RX)] = map (fun p => (Some (fst p) : RX)) (ps ++ [(x, y)]) /\
  pf_y f ++ [(Some y : RX)] = map (fun p => (Some (snd p) : RX)) (ps ++ [(x, y)]).
Proof. intros (Wx & Wy). rewrite Wx, Wy, !map_app. split; reflexivity. Qed.
Lemma remove_old_span int bx : forall (ps : list (R * R)) xs ys,
  (forall p, In p ps -> fst p <= bx) -> Sorted.StronglySorted (fun p q : R * R => fst p <= fst q) ps ->
  remove_old (Some int : RX) (Some bx : RX) (map (fun p => (Some (fst p) : RX)) ps) (map (fun p => (Some (snd p) : RX)) ps) = Ok (xs, ys) ->
  forall u, In (Some u) xs -> bx - int <= u.
Proof.
  induction ps as [|p t IH]; intros xs ys Hle Hs H; cbn [map remove_old] in H; [discriminate|].
  rewrite rx_sub, rx_ltb in H. apply Sorted.StronglySorted_inv in Hs. destruct Hs as [Hs Hp].
  destruct (Rltb int (bx - fst p)) eqn:E.
  - eapply IH; eauto. intros q Hq. apply Hle. right; exact Hq.
  - injection H as <- <-. apply Rltb_false in E. intros u Hu.
    apply (in_map_iff (fun p => Some (fst p)) (p :: t)) in Hu. destruct Hu as (q & Eq & Hq). injection Eq as <-.
    destruct Hq as [->|Hq]; [lra|]. rewrite Forall_forall in Hp. specialize (Hp _ Hq). lra.
Qed.
Lemma sorted_snoc ps x y : Sorted.StronglySorted (fun p q : R * R => fst p <= fst q) ps -> (forall p, In p ps -> fst p <= x) ->
  Sorted.StronglySorted (fun p q => fst p <= fst q) (ps ++ [(x, y)]).
Proof.
  induction ps as [|p t IH]; intros Hs Hx; cbn; [repeat constructor|].
  apply Sorted.StronglySorted_inv in Hs. destruct Hs as [Hs Hp]. constructor.
  - apply IH; [exact Hs|]. intros q Hq. apply Hx. right; exact Hq.
  - apply Forall_app. split; [exact Hp|]. constructor; [|constructor]. cbn. apply Hx. left; reflexivity.
Qed.
Lemma sorted_skipn {A} (r : A -> A -> Prop) n : forall l, Sorted.StronglySorted r l -> Sorted.StronglySorted r (skipn n l).
Proof. induction n as [|n IH]; intros [|x t] H; cbn; auto. apply IH. apply Sorted.StronglySorted_inv in H. apply H. Qed.
Lemma sorted_reach (c : pfconf RX) (f : polyfit RX) : pf_reach True c f -> exists ps, window_of f ps /\ Sorted.StronglySorted (fun p q => fst p <= fst q) ps.
Proof.
  induction 1 as [|f x y f' R IH Ho H|f R IH|f t R IH].
  - exists []. split; [split; reflexivity|constructor].
  - destruct IH as (ps & (Wx & Wy) & Hs). apply pf_add_cases in H. destruct H as [(xs & ys & E & Ex & Ey & _)|(_ & E1 & E2 & _)].
    + apply remove_old_suffix in E; [|rewrite !app_length, Wx, Wy, !map_length; reflexivity]. destruct E as (n & -> & ->).
      exists (skipn n (ps ++ [(x, y)])). split; [split; [rewrite Ex, Wx|rewrite Ey, Wy]; rewrite <- skipn_map, map_app; reflexivity|].
      apply sorted_skipn, sorted_snoc; [exact Hs|]. intros p Hp. apply (Ho I). rewrite Wx. apply in_map_iff. exists p. auto.
    + exists ps. split; [split; congruence|exact Hs].
  - exists []. split; [split; reflexivity|constructor].
  - destruct IH as (ps & (Wx & Wy) & Hs). exists ps. split; [|exact Hs]. unfold pf_predict. destruct (Nat.eqb _ 0); split; auto.
Qed.
Theorem window_span (c : pfconf RX) (f : polyfit RX) int : pf_reach True c f -> pc_int c = Some int ->
  forall u w, In (Some u) (pf_x f) -> In (Some w) (pf_x f) -> w - u <= int.
Proof.
  intros R Hi. assert (Key : forall f x y f', pf_reach True c f -> (forall u, In (Some u) (pf_x f) -> u <= x) ->
     pf_add c f (Some x : RX) (Some y : RX) = Ok f' -> (exists xs ys, remove_old (pc_int c) (Some x : RX) (pf_x f ++ [(Some x : RX)]) (pf_y f ++ [(Some y : RX)]) = Ok (xs, ys) /\ pf_x f' = xs) ->
     forall u w, In (Some u) (pf_x f') -> In (Some w) (pf_x f') -> w - u <= int).
  { clear f R. intros f x y f' R Ho _ (xs & ys & E & Ex) u w Hu Hw. rewrite Ex in *. rewrite Hi in E.
    destruct (sorted_reach R) as (ps & (Wx & Wy) & Hs).
    assert (Hle : forall p, In p (ps ++ [(x, y)]) -> fst p <= x).
    { intros p Hp. apply in_app_iff in Hp. destruct Hp as [Hp|[<-|[]]]; [|cbn; lra]. apply Ho. rewrite Wx. apply in_map_iff. exists p; auto. }
    destruct (window_snoc x y (conj Wx Wy)) as [Sx Sy].
    assert (E' := E). rewrite Sx, Sy in E'.
    assert (A := remove_old_span _ Hle (sorted_snoc y Hs (fun p Hp => Hle p (in_or_app _ _ _ (or_introl Hp)))) E' u Hu).
    apply remove_old_suffix in E; [|rewrite !app_length, Wx, Wy, !map_length; reflexivity]. destruct E as (n & E & _).
    assert (B : w <= x).
    { rewrite E, Sx, skipn_map in Hw. apply in_map_iff in Hw. destruct Hw as (p & Ep & Hp).
      injection Ep as <-. apply Hle. rewrite <- (firstn_skipn n). apply in_or_app. right; exact Hp. }
    lra. }
  induction R as [|f x y f' R IH Ho H|f R IH|f t R IH]; intros u w Hu Hw.
  - destruct Hu.
  - assert (H' := H). apply pf_add_cases in H. destruct H as [(xs & ys & E & Ex & _)|(_ & E1 & _)].
    + eapply Key with (f := f); eauto.
    + rewrite E1 in *. apply IH; assumption.
  - destruct Hu.
  - assert (E : pf_x (fst (pf_predict c f t)) = pf_x f) by (unfold pf_predict; destruct (Nat.eqb _ 0); reflexivity).
    rewrite E in *. apply IH; assumption.
Qed.
(** a negative averaging time empties the deque that is read next *)
Theorem negative_window (c : pfconf RX) (f : polyfit RX) int x y : pc_int c = Some int -> int < 0 ->
  (forall u, In u (pf_x f) -> exists r, u = Some r /\ r <= x) -> List.length (pf_x f) = List.length (pf_y f) ->
  match back (pf_y f) with None => True | Some l => fneb l (Some y : RX) = true end ->
  pf_add c f (Some x : RX) (Some y : RX) = UB.
Proof.
  intros Hi Hn Hx Hl Hf. unfold pf_add.
  assert (E : (match back (pf_y f) with None => true | Some l => fneb l (Some y : RX) end) = true) by (destruct (back _); [exact Hf|reflexivity]).
  rewrite E. assert (R : remove_old (pc_int c) (Some x : RX) (pf_x f ++ [(Some x : RX)]) (pf_y f ++ [(Some y : RX)]) = UB); [|rewrite R; reflexivity].
  rewrite Hi. revert Hl Hx. generalize (pf_y f). generalize (pf_x f). clear E Hf.
  induction l as [|u t IH]; intros [|v l] Hl Hx; try discriminate.
  - cbn [app remove_old]. rewrite rx_sub, rx_ltb. destruct (Rltb int (x - x)) eqn:E; [reflexivity|]. apply Rltb_false in E. lra.
  - cbn [app remove_old]. destruct (Hx u (or_introl eq_refl)) as (r & -> & Hr). rewrite rx_sub, rx_ltb.
    destruct (Rltb int (x - r)) eqn:E; [|apply Rltb_false in E; lra]. apply IH; [injection Hl; auto|]. intros w Hw. apply Hx. right; exact Hw.
Qed.
(** the fits of the smoother *)
Lemma lsq_smooth_cases {F} {NF : Num F} (s : settings F) al q p q' r : lsq_smooth s al q p = Ok (q', r) ->
  let c := lsq_conf s in
  (lq_called q = false /\ r = p /\ lq_x q' = lq_x q /\ lq_y q' = lq_y q /\ lq_start q' = p_ts p /\ lq_called q' = true) \/
  (lq_called q = true /\ lq_called q' = true /\
   let t := fofZ (p_ts p - lq_start q) /! fofZ 1000 in
   exists fx fy, pf_add c (lq_x q) t (p_x p) = Ok fx /\ pf_add c (lq_y q) t (p_y p) = Ok fy /\
   let X := snd (pf_predict c fx t) in let Y := snd (pf_predict c fy t) in
   (s_barriers s = true /\ al X Y = false /\ r = p /\ lq_x q' = pf_clear (fst (pf_predict c fx t)) /\
      lq_y q' = pf_clear (fst (pf_predict c fy t)) /\ lq_start q' = p_ts p) \/
   (lq_x q' = fst (pf_predict c fx t) /\ lq_y q' = fst (pf_predict c fy t) /\ lq_start q' = lq_start q /\
      r = if fisfinite X && fisfinite Y then pos_set_xy p X Y else p)).
Proof.
  unfold lsq_smooth. destruct (lq_called q); cbn [negb].
  - intros H. inv_bind H. inv_bind Hb. right. split; [reflexivity|].
    destruct (pf_predict (lsq_conf s) a _) as [gx X] eqn:EX. destruct (pf_predict (lsq_conf s) a0 _) as [gy Y] eqn:EY.
    destruct (s_barriers s && negb (al X Y)) eqn:Eb; injection Hb0 as <- <-; (split; [reflexivity|]); exists a, a0; (split; [exact Ha|split; [exact Ha0|]]);
    rewrite EX, EY; cbn [fst snd lq_x lq_y lq_start].
    + left. apply andb_true_iff in Eb. destruct Eb as [E1 E2]. apply negb_true_iff in E2. auto 10.
    + right. auto.
  - intros H. injection H as <- <-. left. auto 10.
Qed.
Lemma secs (n : Z) : (fofZ n /! fofZ 1000 : RX) = Some (IZR n / 1000).
Proof. rewrite !rx_ofZ. rewrite rx_div; [reflexivity|]. lra. Qed.
Theorem lsq_fits s q : lsq_reach s q -> pf_reach False (lsq_conf s) (lq_x q) /\ pf_reach False (lsq_conf s) (lq_y q).
Proof.
  induction 1 as [|al q p q' r R [IX IY] (x & y & Ex & Ey) H|q p R [IX IY]].
  - split; constructor.
  - apply lsq_smooth_cases in H. cbv zeta in H. destruct H as [(_ & _ & -> & -> & _)|(_ & _ & fx & fy & Ax & Ay & H)]; [auto|].
    rewrite secs, Ex in Ax. rewrite secs, Ey in Ay.
    assert (RX' : pf_reach False (lsq_conf s) fx) by (eapply PRadd; [exact IX|intros []|exact Ax]).
    assert (RY' : pf_reach False (lsq_conf s) fy) by (eapply PRadd; [exact IY|intros []|exact Ay]).
    destruct H as [(_ & _ & _ & -> & -> & _)|(-> & -> & _)]; split; repeat constructor; assumption.
  - split; constructor; assumption.
Qed.
Lemma pf_add_last {F} {NF : Num F} (c : pfconf F) f x y f' : pf_add c f x y = Ok f' -> pf_last f' = pf_last f.
Proof. unfold pf_add. destruct (match back _ with None => _ | Some _ => _ end); intros H; [inv_bind H; destruct a; injection Hb as <-|injection H as <-]; reflexivity. Qed.
Lemma clamp01_real w : clamp01 (Some w : RX) = (Some (Rmin 1 (Rmax 0 w)) : RX).
Proof. unfold clamp01. rewrite rx_f0, rx_f1, rx_fmax, rx_fmin. f_equal. Qed.
Lemma predict_window {F} {NF : Num F} (c : pfconf F) f t : pf_x (fst (pf_predict c f t)) = pf_x f /\ pf_y (fst (pf_predict c f t)) = pf_y f /\
  pf_coeff (fst (pf_predict c f t)) = pf_coeff f.
Proof. unfold pf_predict. destruct (Nat.eqb _ 0); auto. Qed.
Theorem lsq_output (s : settings RX) al (q q' : lsq RX) (p r : position RX) w sh lx ly ps qs :
  lsq_reach s q -> lq_called q = true -> real_point p -> lsq_smooth s al q p = Ok (q', r) ->
  s_smoothing s = Some w -> s_shift s = Some sh -> pf_last (lq_x q) = Some lx -> pf_last (lq_y q) = Some ly ->
  window_of (lq_x q') ps -> window_of (lq_y q') qs -> two_times ps -> two_times qs ->
  exists ax bx ay by_, best_fit ps ax bx /\ best_fit qs ay by_ /\
    let t := IZR (p_ts p - lq_start q) / 1000 - sh in let k := Rmin 1 (Rmax 0 w) in
    let X := k * (ax + bx * t) + (1 - k) * lx in let Y := k * (ay + by_ * t) + (1 - k) * ly in
    r = pos_set_xy p (Some X) (Some Y) /\ pf_last (lq_x q') = Some X /\ pf_last (lq_y q') = Some Y.
Proof.
  intros R Hc Hp H Hw Hs Lx Ly Wx Wy Tx Ty.
  assert (R' : lsq_reach s q') by (eapply LRsmooth; eauto).
  destruct (lsq_fits R') as [Fx Fy].
  destruct (fit_correct (c := lsq_conf s) eq_refl Fx Wx Tx) as (ax & bx & Cx & Bx).
  destruct (fit_correct (c := lsq_conf s) eq_refl Fy Wy Ty) as (ay & by_ & Cy & By).
  exists ax, bx, ay, by_. split; [exact Bx|]. split; [exact By|].
  apply lsq_smooth_cases in H. cbv zeta in H. destruct H as [(C & _)|(_ & _ & fx & fy & Ax & Ay & H)]; [congruence|].
  rewrite secs in *. set (t := IZR _ / 1000) in *. cbv zeta.
  assert (Lfx : pf_last fx = pf_last (lq_x q)) by (eapply pf_add_last; exact Ax).
  assert (Lfy : pf_last fy = pf_last (lq_y q)) by (eapply pf_add_last; exact Ay).
  destruct H as [(_ & _ & _ & E & _)|(Ex & Ey & _ & Er)].
  - exfalso. rewrite E in Wx. destruct Wx as [Wx _]. cbn in Wx. destruct Tx as (u & _ & Hu & _). destruct ps; [destruct Hu|discriminate].
  - destruct (predict_window (lsq_conf s) fx (Some t : RX)) as (P1 & P2 & P3). rewrite <- Ex in P1, P2, P3.
    destruct (predict_window (lsq_conf s) fy (Some t : RX)) as (Q1 & Q2 & Q3). rewrite <- Ey in Q1, Q2, Q3.
    assert (Wt : pc_weight (lsq_conf s) = (Some (Rmin 1 (Rmax 0 w)) : RX)) by (unfold lsq_conf; cbn [pc_weight]; rewrite Hw; apply clamp01_real).
    assert (Wfx : window_of fx ps) by (destruct Wx; split; congruence).
    assert (Wfy : window_of fy qs) by (destruct Wy; split; congruence).
    destruct (@predict_value (lsq_conf s) fx ps ax bx lx _ sh t eq_refl Wfx (two_times_len Tx) (eq_trans (eq_sym P3) Cx) (eq_trans Lfx Lx) Wt Hs) as [VX LX].
    destruct (@predict_value (lsq_conf s) fy qs ay by_ ly _ sh t eq_refl Wfy (two_times_len Ty) (eq_trans (eq_sym Q3) Cy) (eq_trans Lfy Ly) Wt Hs) as [VY LY].
    rewrite Ex, Ey. rewrite VX, VY in Er. split; [exact Er|]. split; [exact LX|exact LY].
Qed.
