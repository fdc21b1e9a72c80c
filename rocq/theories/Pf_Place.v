(** Fixes without GNSS lie among the transmitters heard (C87). *)
From Coq Require Import Lia Reals Lra Permutation.
From Verif Require Import Base Lib NumReal LibR NumOrd Client Spec_Preproc Spec_Level Spec_Client Spec_Post Spec_Place
  Pf_Level Pf_Preproc Pf_Client Pf_ClientInv Pf_ClientThrow Pf_Post Pf_ClientUB.
Set Implicit Arguments.
Local Open Scope R_scope.

(** ** Rounding *)
Lemma cm_bounds x : cm x <= x < cm x + 1 / 100.
Proof. unfold cm. destruct (base_Int_part (x * 100)). lra. Qed.
Lemma cm_mono x y : x <= y -> cm x <= cm y.
Proof.
  intros H. unfold cm. assert (Int_part (x * 100) <= Int_part (y * 100))%Z.
  { apply Int_part_mono || idtac. destruct (base_Int_part (x * 100)), (base_Int_part (y * 100)).
    assert (IZR (Int_part (x * 100)) < IZR (Int_part (y * 100) + 1)) by (rewrite plus_IZR; lra).
    apply lt_IZR in H4. lia. }
  apply IZR_le in H0. lra.
Qed.
Lemma cm_below x y : cm x <= y -> cm x <= cm y.
Proof.
  intros H. unfold cm in *. assert (Int_part (x * 100) <= Int_part (y * 100))%Z.
  { destruct (base_Int_part (y * 100)).
    assert (IZR (Int_part (x * 100)) < IZR (Int_part (y * 100) + 1)) by (rewrite plus_IZR; lra).
    apply lt_IZR in H2. lia. }
  apply IZR_le in H0. lra.
Qed.
Lemma clip_cm b0 b1 k0 k1 v : b0 <= k0 -> k0 <= k1 -> k1 <= b1 -> cm k0 <= v <= k1 ->
  cm k0 <= cm (Rmin (Rmax v b0) b1) <= cm k1.
Proof.
  intros H1 H2 H3 H4. assert (B := cm_bounds k0). split.
  - apply cm_below. apply Rmin_glb; [|lra]. eapply Rle_trans; [apply H4|apply Rmax_l].
  - apply cm_mono. eapply Rle_trans; [apply Rmin_l|]. apply Rmax_lub; lra.
Qed.

Lemma buffer_incl {F : Type} {NF : Num F} {SO : Sorter} bc (b : buffer F) ls :
  incl (b_ms (fst (buffer_extract bc b ls))) (b_ms b).
Proof.
  assert (P := sort_id_perm (b_ms b)).
  unfold buffer_extract. destruct (_ <? _)%Z; [apply incl_refl|].
  destruct (_ && _); [intros x; apply (Permutation_in _ (Permutation_sym P))|].
  destruct (_ =? _)%Z; cbn; [intros x []|].
  assert (P' := sort_ts_perm (ssort id_lt (b_ms b))).
  intros x Hx. apply drop_old_incl in Hx. apply (Permutation_in _ (Permutation_sym P)), (Permutation_in _ (Permutation_sym P')), Hx.
Qed.

Lemma history_on {F : Type} {NF : Num F} {SO : Sorter} e (k : config F) (A : measurement F -> Prop) (P : client F -> Prop)
    (Q : noutput F -> Prop) :
  (forall c l, P c -> P (with_states c l)) ->
  (forall c m c' o, P c -> A m -> nav_step e k c m = Ok (c', o) -> P c' /\ Q o) ->
  forall bs c c' os, P c -> Forall (Forall A) bs -> navigate_all e k c bs = Ok (c', os) -> P c' /\ Forall (Forall Q) os.
Proof.
  intros Hs Hq.
  assert (G : forall ms c c' os, P c -> Forall A ms -> process e k c ms = Ok (c', os) -> P c' /\ Forall Q os).
  { induction ms as [|m ms IH]; intros c c' os Hc Hh H; [injection H as <- <-; auto|].
    cbn [process] in H. inv_bind H. destruct a as [c1 o1]. inv_bind Hb. destruct a as [c2 o2]. injection Hb0 as <- <-.
    inversion Hh; subst. destruct (Hq _ _ _ _ Hc H1 Ha) as [E1 E2]. destruct (IH _ _ _ E1 H2 Ha0). auto. }
  induction bs as [|b bs IH]; intros c c' os Hc Hh H; [injection H as <- <-; auto|].
  cbn [navigate_all] in H. inv_bind H. destruct a as [c1 o1]. inv_bind Hb. destruct a as [c2 o2]. injection Hb0 as <- <-.
  inversion Hh; subst.
  assert (E : P c1 /\ Forall Q o1).
  { destruct b as [|m b]; [injection Ha as <- <-; auto|]. rewrite navigate_process in Ha by discriminate.
    eapply G; [apply (Hs c []), Hc|apply accepted_forall; exact H1|exact Ha]. }
  destruct E as [E1 E2]. destruct (IH _ _ _ E1 H2 Ha0). auto.
Qed.

Section Place.
Context {SO : Sorter}.
Context (k : config RX) (L : level RX) (K : rect).
Context (HW : wf_collector (cf_col k)) (HN : has_level (cf_col k) "" = false) (HL : In L (col_levels (cf_col k)))
  (HK : on_map L K) (Hzone : s_algo (cf_set k) <> KNN) (Htx : s_radiomap (cf_set k) = false)
  (Hgr : s_graphproj (cf_set k) = false)
  (Hsm : (s_usesmooth (cf_set k) = false /\ s_timesmooth (cf_set k) = false) \/ one_spot K).
Notation s := (cf_set k).
Notation col := (cf_col k).

Lemma known_has l : In l (col_levels col) -> has_level col (l_id l) = true.
Proof.
  intros H. destruct (In_nth_error _ _ H) as [i Hi]. unfold has_level, amem.
  assert (E : alookup (l_id l) (col_index col) = Some i) by (apply HW; exists l; auto). rewrite E. reflexivity.
Qed.
Lemma L_named : l_id L <> ""%string.
Proof. intros E. assert (H := known_has _ HL). rewrite E in H. congruence. Qed.
Lemma same_id l : In l (col_levels col) -> l_id l = l_id L -> l = L.
Proof.
  intros H E. destruct (In_nth_error _ _ H) as [i Hi]. destruct (In_nth_error _ _ HL) as [j Hj].
  assert (E1 : alookup (l_id L) (col_index col) = Some i) by (apply HW; exists l; auto).
  assert (E2 : alookup (l_id L) (col_index col) = Some j) by (apply HW; exists L; auto). congruence.
Qed.
Lemma get_L l : get_level col (l_id L) = Ok l -> l = L.
Proof.
  intros H. assert (H1 := get_level_in _ _ H). apply same_id; [exact H1|].
  unfold get_level in H. inv_bind H. unfold at_or_throw in Ha, Hb. destruct (alookup _ _) eqn:E; [|discriminate].
  injection Ha as <-. destruct (nth_error _ _) eqn:E2; [|discriminate]. injection Hb as <-.
  apply (proj2 HW) in E. destruct E as (l' & E3 & E4). congruence.
Qed.

(** ** Positions *)
Definition sits (r : rect) (p : position RX) : Prop :=
  (p_empty p = true /\ p_level p = ""%string) \/
  (p_level p = l_id L /\ exists x y, p_x p = Some x /\ p_y p = Some y /\ in_rect r x y).
(** the rectangle, extended by what the rounding can move *)
Definition K' : rect := mkRect (cm (rx0 K)) (cm (ry0 K)) (rx1 K) (ry1 K).
Lemma in_K' x y : in_rect K x y -> in_rect K' x y.
Proof. unfold in_rect, K'. cbn. assert (A := cm_bounds (rx0 K)). assert (B := cm_bounds (ry0 K)). lra. Qed.
Lemma sits_K' p : sits K p -> sits K' p.
Proof. intros [H|(H & x & y & H1 & H2 & H3)]; [left; exact H|right; split; [exact H|exists x, y; auto using in_K']]. Qed.
Lemma sits0 r : sits r pos0. Proof. left. split; reflexivity. Qed.
Lemma sits_ts r p t : sits r p -> sits r (pos_set_ts p t). Proof. exact (fun H => H). Qed.
Lemma sits_dev r p d : sits r p -> sits r (pos_set_dev p d). Proof. exact (fun H => H). Qed.
Lemma spot_eq x y : one_spot K -> in_rect K x y -> x = rx0 K /\ y = ry0 K.
Proof. unfold one_spot, in_rect. intros [-> ->] [H1 H2]. lra. Qed.
Lemma spot_in : one_spot K -> in_rect K (rx0 K) (ry0 K).
Proof. unfold one_spot, in_rect. intros [-> ->]. lra. Qed.

(** ** Smoothers *)
Definition fit_at (v : R) (p : polyfit RX) : Prop :=
  (pf_x p = [] /\ pf_y p = []) \/ exists t, pf_x p = [t] /\ pf_y p = [Some v].
Definition sm_at (m : smoother RX) : Prop :=
  match m with
  | SAB a => sits K (ab_pos a) /\ (ab_called a = true -> p_level (ab_pos a) = l_id L) /\
      (ab_vx a = None \/ ab_vx a = Some 0) /\ (ab_vy a = None \/ ab_vy a = Some 0)
  | SLsq q => fit_at (rx0 K) (lq_x q) /\ fit_at (ry0 K) (lq_y q)
  end.
Lemma fit_clear v p : fit_at v (pf_clear p). Proof. left. split; reflexivity. Qed.
Lemma fit_add c v p t p' : fit_at v p -> pf_add c p t (Some v) = Ok p' -> exists u, pf_x p' = [u] /\ pf_y p' = [Some v].
Proof.
  intros Hf H. unfold pf_add in H. cbv zeta in H. destruct Hf as [[Ex Ey]|(u & Ex & Ey)]; rewrite Ex, Ey in H.
  - cbn [back rev app] in H. inv_bind H. destruct a as [xs ys]. cbn [remove_old] in Ha. destruct (_ <! _); [discriminate|]. injection Ha as <- <-.
    injection Hb as <-. exists t. split; reflexivity.
  - assert (E : fneb (Some v : RX) (Some v) = false).
    { unfold fneb. rewrite rx_eqb. assert (E := proj2 (Reqb_true v v) eq_refl). rewrite E. reflexivity. }
    change (back [Some v]) with (Some (Some v : RX)) in H. cbv beta iota in H. rewrite E in H. injection H as <-. exists u. auto.
Qed.
Lemma predict_one c (p : polyfit RX) u v t : pf_x p = [u] -> pf_y p = [Some v] ->
  exists p', pf_predict c p t = (p', Some v) /\ pf_x p' = [u] /\ pf_y p' = [Some v].
Proof.
  enough (G : forall w : RX, w = Some v -> pf_x p = [u] -> pf_y p = [w] ->
    exists p', pf_predict c p t = (p', w) /\ pf_x p' = [u] /\ pf_y p' = [w]) by (apply (G (Some v)); reflexivity).
  intros w Ew Ex Ey. unfold pf_predict. cbv zeta. rewrite Ex, Ey. cbn [List.length Nat.eqb orb].
  assert (E : lagrange c [u] [w] t = w).
  { unfold lagrange. cbn [List.length seq fold_left Nat.eqb negb nth]. rewrite Ew, rx_f0, rx_f1, rx_mul, rx_add. f_equal. ring. }
  rewrite E. eexists. split; [reflexivity|]. split; reflexivity.
Qed.
Lemma smooth_at al m p m' r : one_spot K -> sm_at m -> sits K p -> p_level p = l_id L ->
  sm_smooth s al m p = Ok (m', r) -> sm_at m' /\ sits K r.
Proof.
  clear Hgr Htx Hzone. intros H1 Hm Hp Hl H. destruct Hp as [[_ E]|(_ & x & y & Hx & Hy & Hin)]; [exfalso; apply L_named; congruence|].
  destruct (spot_eq H1 Hin) as [-> ->]. assert (Hp : sits K p) by (right; split; [exact Hl|exists (rx0 K), (ry0 K); auto]).
  destruct m as [a|q]; cbn [sm_smooth] in H.
  - destruct (ab_smooth s al a p) as [a1 p1] eqn:E. injection H as <- <-.
    destruct Hm as (Ho & Hc & Vx & Vy). unfold ab_smooth in E. destruct (_ <? _)%Z; [|injection E as <- <-; cbn; auto].
    cbv zeta in E. destruct (ab_called a) eqn:Ec; cbn [negb orb] in E; [|injection E as <- <-; cbn; auto 7].
    specialize (Hc eq_refl). destruct Ho as [[_ Eo]|(_ & x' & y' & Ox & Oy & Oin)]; [exfalso; apply L_named; congruence|].
    destruct (spot_eq H1 Oin) as [-> ->].
    replace (p_x (ab_pos a)) with (p_x p) in E by congruence. replace (p_y (ab_pos a)) with (p_y p) in E by congruence.
    set (t := fofZ _ /! fofZ 1000) in E. assert (Et : exists tr, t = Some tr) by (unfold t; rewrite rdiv1000; eauto). clearbody t.
    set (g := ab_gain _ _ _) in E. clearbody g. set (b := g *! g /! _) in E. clearbody b.
    set (bt := b /! _) in E. clearbody bt.
    assert (A : forall v w x : RX, v = None \/ v = Some 0 -> (exists r, w = Some r) -> x = w +! v *! t -> (x +! g *! (w -! x) = None \/
      x +! g *! (w -! x) = w) /\ (v +! bt *! (w -! x) = None \/ v +! bt *! (w -! x) = Some 0)).
    { destruct Et as [tr ->]. intros v w x [->| ->] [r ->] ->; [split; left; reflexivity|]. rewrite rx_mul, rx_add, rx_sub.
      split; [destruct g as [g|]|destruct bt as [bt|]]; try (left; reflexivity); right; rewrite rx_mul, rx_add; f_equal; ring. }
    destruct (A (ab_vx a) (p_x p) _ Vx (ex_intro _ _ Hx) eq_refl) as [Ax Bx].
    destruct (A (ab_vy a) (p_y p) _ Vy (ex_intro _ _ Hy) eq_refl) as [Ay By].
    set (xs := _ +! g *! (p_x p -! _)) in *. set (ys := _ +! g *! (p_y p -! _)) in *.
    set (vx := ab_vx a +! bt *! _) in *. set (vy := ab_vy a +! bt *! _) in *. clearbody xs ys vx vy.
    destruct (_ || _ || _); [injection E as <- <-; cbn; auto 7|]. injection E as <- <-. cbn [ab_pos ab_called ab_vx ab_vy sm_at].
    assert (P : sits K (if fisfinite xs && fisfinite ys then pos_set_xy p xs ys else p) /\
      p_level (if fisfinite xs && fisfinite ys then pos_set_xy p xs ys else p) = l_id L).
    { destruct (fisfinite xs && fisfinite ys) eqn:Ef; [|auto]. apply andb_prop in Ef. destruct Ef as [F1 F2].
      destruct Ax as [->| ->]; [discriminate|]. destruct Ay as [->| ->]; [discriminate|]. cbn. split; [|exact Hl].
      right. cbn. split; [exact Hl|]. exists (rx0 K), (ry0 K). auto. }
    destruct P as [P1 P2]. destruct (s_accsmooth s); cbn; auto 7.
  - inv_bind H. destruct a as [q1 p1]. injection Hb as <- <-. cbn [sm_at] in Hm. destruct Hm as [Fx Fy]. cbn [sm_at].
    unfold lsq_smooth in Ha. destruct (negb _); [injection Ha as <- <-; cbn; auto|]. cbv zeta in Ha.
    rewrite Hx, Hy in Ha. inv_bind Ha. inv_bind Hb.
    destruct (fit_add _ _ Fx Ha0) as (ux & X1 & X2). destruct (fit_add _ _ Fy Ha) as (uy & Y1 & Y2).
    destruct (predict_one (lsq_conf s) a (fofZ (p_ts p - lq_start q) /! fofZ 1000) X1 X2) as (fx & E1 & X3 & X4).
    destruct (predict_one (lsq_conf s) a0 (fofZ (p_ts p - lq_start q) /! fofZ 1000) Y1 Y2) as (fy & E2 & Y3 & Y4).
    rewrite E1, E2 in Hb0. destruct (_ && _).
    + injection Hb0 as <- <-. cbn [lq_x lq_y]. auto using fit_clear.
    + injection Hb0 as <- <-. cbn [lq_x lq_y]. split; [split; right; eauto|]. cbn [fisfinite num_real andb].
      right. cbn. split; [exact Hl|]. exists (rx0 K), (ry0 K). auto.
Qed.

(** ** Time smoother *)
Lemma time_at m p ts m' r : one_spot K -> sits K (tm_prev m) -> sits K (tm_next m) -> sits K p ->
  time_smooth m p ts = (m', r) -> sits K (tm_prev m') /\ sits K (tm_next m') /\ sits K r.
Proof.
  clear Hsm Hgr Htx Hzone. intros H1 Hp Hn Hr H. unfold time_smooth in H.
  destruct (ts <? _)%Z; [injection H as <- <-; auto|].
  destruct (negb (String.eqb _ _) || _) eqn:El; [injection H as <- <-; auto|].
  apply orb_false_elim in El. destruct El as [L1 L2]. apply negb_false_iff, String.eqb_eq in L1. apply negb_false_iff, String.eqb_eq in L2.
  destruct (_ || _ || _) eqn:Ee; [injection H as <- <-; auto|].
  apply orb_false_elim in Ee. destruct Ee as [Ee E3]. apply orb_false_elim in Ee. destruct Ee as [E1 E2].
  set (mm := if (_ <? _)%Z then _ else m) in H. cbv zeta in H.
  assert (N : forall q, sits K q -> p_empty q = false -> p_level q = l_id L /\ p_x q = Some (rx0 K) /\ p_y q = Some (ry0 K)).
  { intros q [[Q _]|(Q & x & y & Qx & Qy & Qi)] Eq; [congruence|]. destruct (spot_eq H1 Qi) as [-> ->]. auto. }
  assert (Hm : sits K (tm_prev mm) /\ sits K (tm_next mm) /\ p_empty (tm_prev mm) = false /\ p_empty (tm_next mm) = false)
    by (unfold mm; destruct (_ <? _)%Z; auto).
  destruct Hm as (M1 & M2 & M3 & M4).
  destruct (Z.eqb_spec (p_ts (tm_next mm)) (p_ts (tm_prev mm))) as [Ez|Ez]; [injection H as <- <-; auto|].
  destruct (_ <! _); [injection H as <- <-; auto|]. injection H as <- <-. split; [exact M1|]. split; [exact M2|].
  destruct (N _ M1 M3) as (_ & X1 & Y1). destruct (N _ M2 M4) as (Ln & X2 & Y2).
  assert (Q : forall (v w : RX) r a b, v = Some r -> w = Some r -> b <> 0%Z ->
    (v *! fofZ a +! w *! (fofZ b -! fofZ a)) /! fofZ b = Some r).
  { intros v w r a b -> -> Hb. rewrite !rx_ofZ, rx_sub, !rx_mul, rx_add, rx_div by (intros E; apply Hb, eq_IZR; exact E). f_equal.
    field. intros E; apply Hb, eq_IZR; exact E. }
  right. cbn [pos_set_ts pos_set_xy p_level p_x p_y]. split; [exact Ln|]. exists (rx0 K), (ry0 K).
  split; [apply Q; [exact X2|exact X1|lia]|]. split; [apply Q; [exact Y2|exact Y1|lia]|]. apply spot_in, H1.
Qed.

(** ** Post-processing *)
Record post_at (o : post RX) : Prop := mkPA {
  pa_in : sits K (po_in o); pa_out : po_out o = pos0; pa_last : sits K' (po_last o);
  pa_time : one_spot K -> sits K (tm_prev (po_time o)) /\ sits K (tm_next (po_time o));
  pa_sm : one_spot K -> sm_at (po_sm o) }.
Lemma fuse_at o ts pin st o' f : post_at o -> sits K pin -> fuse_positions s o ts pin pos0 st = (o', f) -> post_at o' /\ sits K f.
Proof.
  intros Hp Hi H. unfold fuse_positions in H. injection H as <- <-.
  assert (Hfp : post_at (fill_states s o pin pos0)).
  { destruct Hp. unfold fill_states. cbn [p_empty pos0]. destruct (p_empty pin); constructor; cbn; auto. }
  split; [exact Hfp|]. unfold fused. rewrite (pa_out Hfp). cbn [p_empty pos0 negb]. rewrite andb_false_r.
  destruct (_ && _); [exact Hi|]. rewrite orb_true_r. apply Hfp.
Qed.
Lemma round_at p : sits K' p -> sits K' (clamp_round (l_box L) p) /\
  (p_level p = l_id L -> exists x y, p_x (clamp_round (l_box L) p) = Some x /\ p_y (clamp_round (l_box L) p) = Some y /\
     cm (rx0 K) <= x <= cm (rx1 K) /\ cm (ry0 K) <= y <= cm (ry1 K)).
Proof.
  intros [[E1 E2]|(Hl & x & y & Hx & Hy & Hin)].
  - split; [left; auto|]. intros E. exfalso. apply L_named. congruence.
  - destruct HK as (x0 & y0 & x1 & y1 & (B1 & B2 & B3 & B4) & C1 & C2 & C3 & C4 & C5 & C6).
    unfold clamp_round. cbn [p_x p_y pos_set_xy p_level]. rewrite B1, B2, B3, B4, Hx, Hy, !clamp_real, !round2_real.
    assert (Gx := clip_cm C1 C2 C3 (proj1 Hin)).
    assert (Gy := clip_cm C4 C5 C6 (proj2 Hin)).
    split.
    + right. split; [exact Hl|]. eexists _, _. split; [reflexivity|]. split; [reflexivity|].
      assert (Ux := cm_bounds (rx1 K)). assert (Uy := cm_bounds (ry1 K)). unfold in_rect, K'. cbn [rx0 rx1 ry0 ry1]. unfold cm in *. lra.
    + intros _. eexists _, _. split; [reflexivity|]. split; [reflexivity|]. auto.
Qed.
(** what a processed position looks like *)
Definition rounded (p : position RX) : Prop :=
  p_empty p = true \/ (p_level p = l_id L /\ exists x y, p_x p = Some x /\ p_y p = Some y /\
     cm (rx0 K) <= x <= cm (rx1 K) /\ cm (ry0 K) <= y <= cm (ry1 K)).
Lemma processed_at pc o f ts lm o' p : post_at o -> sits K f -> processed s pc o f ts lm L = Ok (o', p) ->
  post_at o' /\ rounded p.
Proof.
  intros Ho Hf H. unfold processed in H. cbv zeta in H.
  destruct (p_empty f) eqn:Ee; [injection H as <- <-; destruct Ho; split; [constructor; auto|left; reflexivity]|].
  destruct (negb _); [injection H as <- <-; destruct Ho; split; [constructor; auto|left; reflexivity]|].
  destruct (_ <=? _)%Z; [injection H as <- <-; destruct Ho; split; [constructor; auto|left; reflexivity]|].
  cbn [po_last po_sm po_time po_idev po_odev po_in po_out] in H.
  assert (Hl : p_level f = l_id L) by (destruct Hf as [[Hf _]|[Hf _]]; [congruence|exact Hf]).
  inv_bind H. destruct a as [sm r].
  assert (Hr : (one_spot K -> sm_at sm) /\ sits K r).
  { destruct (s_usesmooth s) eqn:Eu; [|injection Ha as <- <-; split; [apply Ho|exact Hf]].
    assert (Hc := Hsm). destruct Hc as [[Hs _]|Hs]; [congruence|].
    assert (G : sm_at sm /\ sits K r); [|tauto].
    eapply smooth_at; [exact Hs| |exact Hf|exact Hl|exact Ha].
    destruct (negb _); [|apply Ho, Hs]. assert (G := pa_sm Ho Hs). destruct (po_sm o); cbn.
    - split; [exact Hf|]. auto.
    - split; apply fit_clear. }
  destruct Hr as [Hsm' Hr].
  set (tr := if s_timesmooth s then _ else _) in Hb.
  assert (Htm : (one_spot K -> sits K (tm_prev (fst tr)) /\ sits K (tm_next (fst tr))) /\ sits K (snd tr)).
  { unfold tr. destruct (s_timesmooth s) eqn:Et; [|cbn; split; [apply Ho|exact Hr]].
    assert (Hc := Hsm). destruct Hc as [[_ Hs]|Hs]; [congruence|].
    destruct (time_smooth (po_time o) r ts) as [tm1 r1] eqn:E. cbn.
    destruct (pa_time Ho Hs) as [P1 P2].
    destruct (time_at _ _ Hs P1 P2 Hr E) as (Q1 & Q2 & Q3). auto. }
  destruct tr as [tm r1]. cbn [fst snd] in Htm. destruct Htm as (Ht1 & Hr1).
  set (hm := hold_or_move _ _ _ _ _ _) in Hb.
  assert (Hh : sits K' (fst hm)).
  { apply sits_K' in Hr1. unfold hm, hold_or_move. cbv zeta. cbn [po_last po_extr po_in].
    destruct (_ && _); [destruct (_ && _)|]; cbn; auto using sits_ts, sits_dev. apply sits_ts, Ho. }
  destruct hm as [last extr]. cbn [fst] in Hh. unfold project in Hb. rewrite Hgr in Hb. cbn [bind] in Hb.
  injection Hb as <- <-. destruct (round_at Hh) as [R1 R2]. split.
  - destruct Ho. constructor; cbn; auto.
  - destruct Hh as [[E1 E2]|[E1 _]]; [left; exact E1|]. right. split; [exact E1|]. apply R2, E1.
Qed.

(** ** Level and radio *)
Definition lev_at (x : string) : Prop := x = ""%string \/ x = l_id L.
Definition known_r (i : string) : Prop := forall l' t, In l' (col_levels col) -> In (i, t) (l_txs l') ->
  l' = L /\ exists x y, zx (t_pt t) = Some x /\ zy (t_pt t) = Some y /\ in_rect K x y.
Lemma alookup_In V (i : string) (l : list (string * V)) v : alookup i l = Some v -> In (i, v) l.
Proof.
  induction l as [|[j w] l IH]; cbn; [discriminate|]. destruct (String.eqb_spec i j) as [->|_]; [|auto].
  intros H; injection H as ->. auto.
Qed.
Lemma contains_known i l : known_r i -> In l (col_levels col) -> contains_tx l i = true ->
  l = L /\ exists t x y, get_tx l i = Ok t /\ zx (t_pt t) = Some x /\ zy (t_pt t) = Some y /\ in_rect K x y.
Proof.
  intros Hk Hl H. unfold contains_tx, amem in H. unfold get_tx. destruct (alookup i (l_txs l)) as [t|] eqn:E; [|discriminate].
  destruct (Hk l t Hl (alookup_In _ _ E)) as (E1 & x & y & E2 & E3 & E4). split; [exact E1|]. exists t, x, y. cbn. auto.
Qed.
Lemma detect_at rs det : Forall (fun r => known_r (r_id r)) rs -> detect k rs = Ok det -> lev_at det.
Proof.
  intros Hr H. unfold detect, use_rm_level in H. rewrite Htx in H.
  replace (is_knn s) with false in H by (unfold is_knn; destruct (s_algo s); congruence). cbn [orb] in H.
  destruct (detect_tx_best (s_txpower s) col rs) as (r & E & [[-> _]|(l & Hv & -> & _)]); rewrite E in H; injection H as <-; [left; reflexivity|].
  right. assert (Hl : In l (col_levels col)) by apply Hv.
  assert (Hv' := proj2 (on_level_visible col rs l Hl) (conj Hl Hv)). clear Hv. rename Hv' into Hv. rewrite <- level_radio_on in Hv.
  destruct (level_radio l rs) as [|m t] eqn:El; [congruence|]. assert (Hm : In m (level_radio l rs)) by (rewrite El; left; reflexivity).
  apply filter_In in Hm. destruct Hm as [Hm1 Hm2]. rewrite Forall_forall in Hr.
  destruct (contains_known _ (Hr _ Hm1) Hl Hm2) as [-> _]. reflexivity.
Qed.
Lemma zone_at mp ts rs kn st p : Forall (fun r => known_r (r_id r)) rs -> indoor k mp L ts rs = Ok (kn, (st, p)) -> sits K p.
Proof.
  intros Hr H. unfold indoor in H.
  replace (is_knn s) with false in H by (unfold is_knn; destruct (s_algo s); congruence).
  inv_bind H. destruct a as [st1 p1]. injection Hb as <- <- <-.
  unfold zone_position in Ha. destruct rs as [|r rs]; [injection Ha as <- <-; apply sits0|].
  destruct (level_radio L (r :: rs)) as [|m0 rest] eqn:El; [injection Ha as <- <-; apply sits0|].
  set (n := max_elem_from _ _ _) in Ha.
  assert (Hn : In n (level_radio L (r :: rs))) by (rewrite El; apply max_elem_in).
  apply filter_In in Hn. destruct Hn as [Hn1 Hn2]. rewrite Forall_forall in Hr.
  destruct (contains_known _ (Hr _ Hn1) HL Hn2) as (_ & t & x & y & E1 & E2 & E3 & E4).
  inv_bind Ha. rewrite Hn2, E1 in Ha0. cbn [bind] in Ha0. injection Ha0 as <-.
  destruct (mget _ _ _) as [A B]. injection Hb as <- <-. right. split; [reflexivity|]. exists x, y. cbn. auto.
Qed.
Definition lest_at (e : levest RX) : Prop := lev_at (lh_cur (le_hist e)) /\ lev_at (ba_level (le_baro e)) /\
  (lh_init (le_hist e) = true -> lh_cur (le_hist e) = l_id L).
Lemma level_at b (e : levest RX) det m e' lid : lest_at e -> lev_at det -> level_step b e det m = (e', lid) -> lest_at e' /\ lev_at lid.
Proof.
  intros (E1 & E2 & E3) Hd H. unfold level_step in H. destruct (hist_step _ _) as [h l1] eqn:Eh.
  assert (G : lev_at (lh_cur h) /\ lev_at l1 /\ (lh_init h = true -> lh_cur h = l_id L)).
  { unfold hist_step in Eh. destruct (String.eqb_spec det "") as [Ed|Ed]; [injection Eh as <- <-; auto|]. cbv zeta in Eh.
    assert (Hd' : det = l_id L) by (destruct Hd; [congruence|assumption]).
    destruct (_ <? _)%Z; injection Eh as <- <-; cbn; auto. destruct (lh_init _) eqn:Ei; auto. }
  destruct G as (G1 & G2 & G3). destruct b; [|injection H as <- <-; split; [split; [|split]|]; auto].
  destruct (baro_step _ _ _) as [bb l2] eqn:Eb. injection H as <- <-. unfold baro_step in Eb.
  destruct (negb _); [injection Eb as <- <-; split; [split; [|split]|]; auto|]. cbv zeta in Eb. injection Eb as <- <-.
  enough (G : lev_at (ba_level (baro_update_level (baro_update_buffers (le_baro e) m) l1))) by (split; [split; [|split]|]; auto).
  assert (B : ba_level (baro_update_buffers (le_baro e) m) = ba_level (le_baro e)).
  { unfold baro_update_buffers. destruct (s_type _); try reflexivity. cbv zeta. destruct (Nat.ltb _ _); [|reflexivity].
    destruct (ba_new _); reflexivity. }
  unfold baro_update_level. cbv zeta. destruct (_ && _); [|exact G2]. destruct (negb _); [|rewrite B; exact E2].
  destruct (_ || _); [rewrite B; exact E2|]. destruct (_ <! _); [exact G2|rewrite B; exact E2].
Qed.

(** ** The client *)
Record at_place (c : client RX) : Prop := mkAt {
  ap_buf : Forall (fun m => known_r (r_id (st_data m))) (b_ms (pp_buf (c_pre c)));
  ap_sen : s_type (st_data (pp_sensor (c_pre c))) <> LOCATION;
  ap_lev : lest_at (c_lev c); ap_outd : ou_last (c_outd c) = pos0;
  ap_post : post_at (c_post c); ap_pos : rounded (c_pos c) }.
Lemma at0 g : s_type (st_data (g_sensor g)) <> LOCATION -> at_place (client0 g s).
Proof.
  intros Hg. constructor; cbn; auto.
  - split; [left; reflexivity|]. split; [left; reflexivity|]. discriminate.
  - constructor; cbn; auto using sits0. intros _. destruct (s_abfilter s); cbn; [|split; left; split; reflexivity].
    split; [apply sits0|]. split; [discriminate|]. auto.
  - left. reflexivity.
Qed.
Lemma outdoor_at o ts m n fl o' p : s_type (st_data m) <> LOCATION -> ou_last o = pos0 ->
  outdoor_position s col o ts m n fl = Ok (o', p) -> ou_last o' = pos0 /\ p = pos0.
Proof.
  intros Hm Ho H. unfold outdoor_position in H. cbv zeta in H.
  set (oo := if fl || _ then _ else o) in H.
  assert (E : ou_last oo = pos0) by (unfold oo; destruct (fl || _); exact Ho).
  unfold gps_of in H. destruct (s_type _); try congruence; dif H; injection H as <- <-; auto.
Qed.
Lemma update_at p m p' : hears_only col L K m -> Forall (fun m => known_r (r_id (st_data m))) (b_ms (pp_buf p)) ->
  s_type (st_data (pp_sensor p)) <> LOCATION -> update_measurements s col p m = Ok p' ->
  Forall (fun m => known_r (r_id (st_data m))) (b_ms (pp_buf p')) /\ s_type (st_data (pp_sensor p')) <> LOCATION.
Proof.
  intros Hm Hb Hs H. unfold update_measurements in H. unfold hears_only in Hm. destruct (st_data m) as [r|d|d].
  - inv_bind H. destruct a; injection Hb0 as <-; cbn; [|auto]. split; [|exact Hs].
    unfold buffer_add. cbn. apply Forall_app. split; [exact Hb|]. constructor; [|constructor]. exact Hm.
  - injection H as <-. cbn. auto.
  - injection H as <-. cbn. auto.
Qed.
Lemma extract_at p lm p' rs : Forall (fun m => known_r (r_id (st_data m))) (b_ms (pp_buf p)) ->
  extract_radio s (cf_buf k) col p lm = Ok (p', rs) ->
  Forall (fun m => known_r (r_id (st_data m))) (b_ms (pp_buf p')) /\ Forall (fun r => known_r (r_id r)) rs /\ pp_sensor p' = pp_sensor p.
Proof.
  intros Hb H. unfold extract_radio in H. destruct (buffer_extract (cf_buf k) (pp_buf p) lm) as [b out] eqn:E.
  inv_bind H. rename a into sel. inv_bind Hb0. injection Hb1 as <- <-. cbn [pp_buf pp_sensor].
  rewrite Forall_forall in Hb. split; [|split; [|reflexivity]].
  - apply Forall_forall. intros m Hm. apply Hb. apply (buffer_incl (cf_buf k) (pp_buf p) lm). rewrite E. exact Hm.
  - assert (Ho : Forall (fun r => known_r (r_id r)) out).
    { apply Forall_forall. intros r Hr. destruct (Z.lt_ge_cases (b_cur (pp_buf p) - b_last (pp_buf p)) (bc_shift (cf_buf k))) as [T|T].
      - destruct (extract_gated (cf_buf k) (pp_buf p) lm T) as (E1 & _). rewrite E in E1. cbn in E1. subst out. destruct Hr.
      - destruct (extract_averages (cf_buf k) (pp_buf p) lm T) as (_ & Ha2 & _). rewrite E in Ha2. cbn [snd] in Ha2.
        destruct (proj1 (Ha2 (r_id r)) (in_map _ _ _ Hr)) as (m & Hm & <-). apply Hb, Hm. }
    assert (Hs : Forall (fun r => known_r (r_id r)) sel).
    { destruct (s_closest s) eqn:Ec.
      - destruct (closest_spec s out Ec Ha) as (dr & P & _). rewrite Forall_forall in *. intros r Hr.
        apply Ho. apply (Permutation_in _ (Permutation_sym P)), in_or_app. auto.
      - unfold closest_aps in Ha. rewrite Ec in Ha. injection Ha as <-. exact Ho. }
    apply mapM_forall2 in Ha0. clear -Hs Ha0. induction Ha0 as [|x y l l' H H1 IH]; [constructor|]. inversion Hs; subst.
    constructor; [|auto]. destruct (set_distance_keeps _ _ _ H) as [-> _]. assumption.
Qed.
Lemma drop_at cur sig mot lid : lev_at lid -> lev_at (drop_level s cur sig mot lid).
Proof. intros H. unfold drop_level. cbv zeta. destruct (_ && _); [left; reflexivity|]. destruct (_ <=? _)%Z; [left; reflexivity|exact H]. Qed.
Lemma locate_at c ts lid rs mi oc : at_place c -> lev_at lid -> Forall (fun r => known_r (r_id r)) rs ->
  locate k c ts lid rs pos0 mi = Ok oc -> post_at (oc_post oc) /\ rounded (oc_pos oc).
Proof.
  intros Ac Hl Hr H. unfold locate in H. destruct (has_level col lid) eqn:Eh.
  - destruct Hl as [->| ->]; [congruence|]. inv_bind H. apply get_L in Ha. subst a. inv_bind Hb. destruct a as [kn [st inp]].
    destruct (fuse_positions _ _ _ _ _ _) as [po f] eqn:Ef. inv_bind Hb0. destruct a as [[[az azv] ph] pg].
    inv_bind Hb. destruct a as [po1 p]. injection Hb0 as <-. cbn [oc_post oc_pos].
    assert (G := zone_at _ _ Hr Ha). apply fuse_at in Ef; [|apply Ac|exact G]. destruct Ef as [G1 G2].
    eapply processed_at; [exact G1|exact G2|exact Ha1].
  - cbn [negb p_empty pos0] in H. injection H as <-. cbn. destruct Ac. auto.
Qed.
Lemma at_step e c m c' o : at_place c -> hears_only col L K m -> nav_step e k c m = Ok (c', o) ->
  at_place c' /\ (o_status o = OK -> fix_in L K o).
Proof.
  intros Ac Hm H. destruct (nav_step_inv _ _ _ _ H) as (pre & sf & mi & pre1 & rs & det & lev & lid & outd & outp & oc & ns
    & H1 & H2 & H3 & H4 & H5 & H6 & H7 & H8 & ->).
  apply update_at in H1; [|exact Hm|apply Ac|apply Ac]. destruct H1 as [U1 U2].
  apply extract_at in H3; [|exact U1]. destruct H3 as (X1 & X2 & X3).
  apply detect_at in H4; [|exact X2]. apply level_at in H5; [|apply Ac|exact H4]. destruct H5 as [V1 V2].
  apply outdoor_at in H6; [|exact U2|apply Ac]. destruct H6 as [O1 ->].
  apply locate_at in H7; [|exact Ac|apply drop_at; exact V2|exact X2]. destruct H7 as [P1 P2]. split.
  - constructor; cbn; auto. rewrite X3. exact U2.
  - intros Ho. destruct (p_empty (oc_pos oc)) eqn:Ee.
    { unfold output in H8. rewrite Ee in H8. injection H8 as <-. cbn in Ho. destruct (oc_stat oc); discriminate. }
    destruct (output_status _ _ _ _ _ _ HW H8 Ee) as (_ & Q1 & _ & _ & Q2).
    destruct P2 as [P2|(P2 & x & y & Px & Py & Pb)]; [congruence|].
    split; [congruence|]. destruct Q2 as (l & L1 & L2 & L3); [rewrite P2; apply L_named|].
    assert (l = L) by (apply same_id; congruence). subst l. exists x, y. rewrite L3, Px, Py. auto.
Qed.
Lemma at_states c l : at_place c -> at_place (with_states c l).
Proof. intros []. constructor; auto. Qed.
Lemma at_history e bs c c' os : at_place c -> Forall (Forall (hears_only col L K)) bs ->
  navigate_all e k c bs = Ok (c', os) -> at_place c' /\ Forall (Forall (fun o => o_status o = OK -> fix_in L K o)) os.
Proof.
  apply history_on; [intros c0 l H; apply at_states, H|]. intros c0 m c1 o H1 H2 H3. eapply at_step; eassumption.
Qed.

(** ** A fix whenever a window closes *)
Context (Hst : s_stops s = false) (Hcl : s_closest s = false) (Hba : s_baro s = false) (Hpw : s_txpower s = false)
  (Hrs : s_mtype s = RSSI) (cu : R) (Hcu : s_cutoff s = Some cu) (Hcu0 : -1000 <= cu)
  (Hns : (0 < s_nosignal s)%Z) (Hna : (0 < s_noaction s)%Z) (Hdr : (0 < pc_dead (cf_post k))%Z).
Ltac zlia := try clear Hzone; try clear Htx; try clear Hgr; try clear Hsm; try clear Hst; try clear Hcl; try clear Hba; try clear Hpw; try clear Hrs;
  try clear Hcu; try clear Hcu0; lia.
Definition level_rssi (x : RX) : Prop := exists v, x = Some v /\ cu < v < 0.
Definition loud (c : client RX) : Prop := Forall (fun m => level_rssi (r_rssi (st_data m))) (b_ms (pp_buf (c_pre c))).
Lemma mean_level A (f : A -> RX) l n : l <> [] -> Forall (fun a => level_rssi (f a)) l -> n = IZR (Z.of_nat (List.length l)) ->
  level_rssi (fsum f l /! Some n).
Proof.
  intros Hl Hf ->. 
  assert (G : forall l a, Forall (fun a => level_rssi (f a)) l -> exists t, fold_left (fun s x => s +! f x) l (Some a : RX) = Some t /\
    (l <> [] -> a + IZR (Z.of_nat (List.length l)) * cu < t < a) /\ (l = [] -> t = a)).
  { clear. induction l as [|x l IH]; intros a H; [exists a; split; [reflexivity|]; split; [congruence|auto]|].
    inversion H as [|? ? (v & Ev & Hv) H']; subst. destruct (IH (a + v) H') as (t & Et & Ht & H0). exists t.
    cbn [fold_left]. rewrite Ev, rx_add. split; [exact Et|]. split; [|discriminate]. intros _.
    cbn [List.length]. rewrite Nat2Z.inj_succ, succ_IZR. destruct l as [|y l]; [rewrite H0 by reflexivity; cbn; lra|].
    specialize (Ht ltac:(discriminate)). lra. }
  destruct (G l 0 Hf) as (t & Et & Ht & _). specialize (Ht Hl). unfold fsum. rewrite rx_f0, Et.
  assert (0 < IZR (Z.of_nat (List.length l))) by (apply IZR_lt; destruct l; [congruence|cbn; zlia]).
  rewrite rx_div by lra. eexists. split; [reflexivity|]. split.
  - apply Rmult_lt_reg_r with (IZR (Z.of_nat (List.length l))); [assumption|]. unfold Rdiv. rewrite Rmult_assoc, Rinv_l by lra. lra.
  - apply Rmult_lt_reg_r with (IZR (Z.of_nat (List.length l))); [assumption|]. unfold Rdiv. rewrite Rmult_assoc, Rinv_l by lra. lra.
Qed.
Lemma loud_update p m p' : Forall (fun m => level_rssi (r_rssi (st_data m))) (b_ms (pp_buf p)) ->
  update_measurements s col p m = Ok p' -> Forall (fun m => level_rssi (r_rssi (st_data m))) (b_ms (pp_buf p')).
Proof.
  intros Hb H. destruct m as [d ts]. destruct d as [r|d|d].
  - destruct (update_radio_spec s p r ts HW) as (p1 & E & _ & _ & _ & [(Ha & _ & Eb)|(_ & _ & Eb)]); rewrite E in H; injection H as <-;
      rewrite Eb; [|exact Hb]. cbn. apply Forall_app. split; [exact Hb|]. constructor; [|constructor]. cbn.
    destruct Ha as (_ & _ & Ha). rewrite Hrs in Ha. destruct Ha as [A1 A2]. rewrite Hcu in A2.
    destruct (r_rssi r) as [v|]; [|discriminate]. rewrite rx_f0, rx_ltb in A1. rewrite rx_ltb in A2. apply Rltb_true in A1, A2.
    exists v. cbn. split; [f_equal; ring|lra].
  - injection H as <-. exact Hb.
  - injection H as <-. exact Hb.
Qed.
Lemma loud_extract p lm p' rs : Forall (fun m => level_rssi (r_rssi (st_data m))) (b_ms (pp_buf p)) ->
  extract_radio s (cf_buf k) col p lm = Ok (p', rs) ->
  Forall (fun m => level_rssi (r_rssi (st_data m))) (b_ms (pp_buf p')) /\ Forall (fun r => level_rssi (r_rssi r)) rs /\
  ((bc_shift (cf_buf k) <= b_cur (pp_buf p) - b_last (pp_buf p))%Z -> forall m, In m (b_ms (pp_buf p)) -> In (r_id (st_data m)) (map (@r_id RX) rs)).
Proof.
  intros Hb H. unfold extract_radio in H. destruct (buffer_extract (cf_buf k) (pp_buf p) lm) as [b out] eqn:E.
  inv_bind H. rename a into sel. inv_bind Hb0. injection Hb1 as <- <-. cbn [pp_buf pp_sensor].
  unfold closest_aps in Ha. rewrite Hcl in Ha. injection Ha as <-.
  assert (Hids : map (@r_id RX) a = map (@r_id RX) out /\ map (@r_rssi RX) a = map (@r_rssi RX) out).
  { apply mapM_forall2 in Ha0. clear -Ha0. induction Ha0 as [|x y l l' H H1 [IH1 IH2]]; [split; reflexivity|]. cbn.
    destruct (set_distance_keeps _ _ _ H) as [-> ->]. rewrite IH1, IH2. auto. }
  destruct Hids as [I1 I2]. split; [|split].
  - rewrite Forall_forall in Hb. apply Forall_forall. intros m Hm. apply Hb. apply (buffer_incl (cf_buf k) (pp_buf p) lm). rewrite E. exact Hm.
  - enough (G : Forall level_rssi (map (@r_rssi RX) out)) by (rewrite <- I2 in G; apply (proj1 (Forall_map (@r_rssi RX) level_rssi a)) in G; exact G).
    apply Forall_map, Forall_forall. intros r Hr.
    destruct (Z.lt_ge_cases (b_cur (pp_buf p) - b_last (pp_buf p)) (bc_shift (cf_buf k))) as [T|T].
    + destruct (extract_gated (cf_buf k) (pp_buf p) lm T) as (E1 & _). rewrite E in E1. cbn in E1. subst out. destruct Hr.
    + destruct (extract_averages (cf_buf k) (pp_buf p) lm T) as (_ & _ & Ha3). rewrite E in Ha3. cbn [snd] in Ha3.
      destruct (Ha3 _ Hr) as ((g & P & ->) & _ & (m & Hm & _)). unfold fofnat. rewrite rx_ofZ. apply mean_level; [| |reflexivity].
      * intros ->. apply Permutation_sym, Permutation_nil in P. rewrite P in Hm. destruct Hm.
      * eapply Permutation_Forall; [exact P|]. apply Forall_forall. intros x Hx. apply filter_In in Hx. rewrite Forall_forall in Hb. apply Hb, Hx.
  - intros T m Hm. rewrite I1. destruct (extract_averages (cf_buf k) (pp_buf p) lm T) as (_ & Ha2 & _). rewrite E in Ha2. cbn [snd] in Ha2.
    apply Ha2. eauto.
Qed.
Lemma loud_step e c m c' o : loud c -> nav_step e k c m = Ok (c', o) -> loud c'.
Proof.
  intros Hc H. destruct (nav_step_inv _ _ _ _ H) as (pre & sf & mi & pre1 & rs & det & lev & lid & outd & outp & oc & ns
    & H1 & H2 & H3 & H4 & H5 & H6 & H7 & H8 & ->).
  apply loud_update in H1; [|exact Hc]. apply loud_extract in H3; [|exact H1]. apply H3.
Qed.
Lemma detect_L rs det : Forall (fun r => known_r (r_id r)) rs -> Forall (fun r => level_rssi (r_rssi r)) rs ->
  level_radio L rs <> [] -> detect k rs = Ok det -> det = l_id L.
Proof.
  intros Hr Hv Hl H. destruct (detect_at Hr H) as [->|E]; [|exact E]. exfalso.
  unfold detect, use_rm_level in H. rewrite Htx in H.
  replace (is_knn s) with false in H by (unfold is_knn; destruct (s_algo s); congruence). cbn [orb] in H.
  destruct (detect_tx_best (s_txpower s) col rs) as (r & E & [[-> G]|(l & [Hi _] & -> & _)]); rewrite E in H.
  - clear H. rewrite level_radio_on in Hl. specialize (G L (proj2 (proj1 (on_level_visible col rs L HL) Hl))).
    unfold tx_score in G. rewrite Hpw in G. cbv zeta in G.
    assert (N : (0 < List.length (on_level L rs) <= List.length rs)%nat).
    { split; [destruct (on_level L rs); [congruence|cbn; zlia]|]. unfold on_level. clear. induction rs as [|x q IH]; cbn; [zlia|]. destruct (existsb _ _); cbn; zlia. }
    rewrite Z.max_l in G by zlia.
    assert (M : level_rssi (fsum (@r_rssi RX) (on_level L rs) /! fofZ (Z.of_nat (List.length (on_level L rs))))).
    { rewrite rx_ofZ. apply mean_level; [exact Hl| |reflexivity]. apply Forall_forall. intros x Hx. apply filter_In in Hx. rewrite Forall_forall in Hv. apply Hv, Hx. }
    destruct M as (v & Ev & Bv). rewrite Ev in G. unfold fofnat in G. rewrite rx_lit in G by lra. rewrite !rx_ofZ, rx_f0, rx_f1, rx_add, rx_mul in G.
    assert (A : 0 < IZR (Z.of_nat (List.length rs))) by (apply IZR_lt; zlia).
    assert (B : 0 < IZR (Z.of_nat (List.length (on_level L rs)))) by (apply IZR_lt; zlia).
    rewrite rx_div in G by lra. rewrite rx_add in G.
    assert (C : 0 < 1 / 10 * IZR (Z.of_nat (List.length (on_level L rs))) / IZR (Z.of_nat (List.length rs))).
    { apply Rdiv_lt_0_compat; lra. }
    set (w := 1 / 10 * _ / _) in *. rewrite rx_div in G by lra. rewrite rx_ltb in G. apply Rltb_false in G.
    apply (Rmult_le_compat_r (1 + w)) in G; [|lra]. unfold Rdiv in G. rewrite Rmult_assoc, Rinv_l in G by lra. nra.
  - injection H as H. apply L_named. rewrite <- H in *. pose proof (known_has _ Hi) as X. rewrite H in X. congruence.
Qed.
Lemma zone_fix mp ts rs kn st p : Forall (fun r => known_r (r_id r)) rs -> level_radio L rs <> [] ->
  indoor k mp L ts rs = Ok (kn, (st, p)) -> st = OK /\ p_empty p = false /\ p_ts p = ts /\ p_level p = l_id L.
Proof.
  intros Hr Hl H. unfold indoor in H.
  replace (is_knn s) with false in H by (unfold is_knn; destruct (s_algo s); congruence).
  inv_bind H. destruct a as [st1 p1]. injection Hb as <- <- <-.
  unfold zone_position in Ha. destruct rs as [|r rs]; [exfalso; apply Hl; reflexivity|].
  destruct (level_radio L (r :: rs)) as [|m0 rest]; [congruence|].
  inv_bind Ha. destruct (mget _ _ _) as [A B]. injection Hb as <- <-. auto.
Qed.
Lemma fix_step e c r0 ts c' o : at_place c -> loud c -> sm_ready s (c_post c) ->
  hears_only col L K (mkSt (MRadio r0) ts) -> accepted_radio s col r0 -> In (r_id r0) (map fst (l_txs L)) ->
  (bc_shift (cf_buf k) <= ts - (if b_cur (pp_buf (c_pre c)) =? 0 then ts else b_last (pp_buf (c_pre c))))%Z ->
  nav_step e k c (mkSt (MRadio r0) ts) = Ok (c', o) -> o_status o = OK.
Proof.
  intros Ac Lc Hready Hm Hacc Hin Hgate H.
  destruct (nav_step_inv _ _ _ _ H) as (pre & sf & mi & pre1 & rs & det & lev & lid & outd & outp & oc & ns
    & H1 & H2 & H3 & H4 & H5 & H6 & H7 & H8 & ->).
  assert (Lu := loud_update _ _ Lc H1).
  assert (U := update_at _ _ Hm (ap_buf Ac) (ap_sen Ac) H1). destruct U as [U1 U2].
  destruct (update_radio_spec s (c_pre c) r0 ts HW) as (p1 & E & Ecur & _ & _ & [(_ & Esig & Ebuf)|(N & _)]); [|tauto].
  rewrite E in H1. injection H1 as <-.
  destruct (extract_at _ _ U1 H3) as (X1 & X2 & X3). destruct (loud_extract _ _ Lu H3) as (_ & Y2 & Y3).
  assert (Hid : In (r_id r0) (map (@r_id RX) rs)).
  { assert (T : (bc_shift (cf_buf k) <= b_cur (pp_buf p1) - b_last (pp_buf p1))%Z).
    { rewrite Ebuf. unfold buffer_add. exact Hgate. }
    specialize (Y3 T). rewrite Ebuf in Y3. unfold buffer_add in Y3. cbn [b_ms st_data st_ts] in Y3.
    apply (Y3 (mkSt (radio_set r0 (r_rssi r0 +! f0) (r_dist r0)) ts)), in_or_app. right. left. reflexivity. }
  assert (Hlr : level_radio L rs <> []).
  { apply in_map_iff in Hid. destruct Hid as (r & Er & Hr). rewrite level_radio_on. intros En.
    assert (G : In r (on_level L rs)); [|rewrite En in G; destruct G]. apply filter_In. split; [exact Hr|].
    apply existsb_exists. exists (r_id r0). split; [exact Hin|]. rewrite Er. apply String.eqb_refl. }
  apply detect_L in H4; [|assumption..]. subst det.
  assert (El : lid = l_id L).
  { unfold level_step in H5. rewrite Hba in H5. destruct (hist_step _ _) as [h l1] eqn:Eh. injection H5 as _ <-.
    unfold hist_step in Eh. rewrite (proj2 (String.eqb_neq _ _) L_named) in Eh. cbv zeta in Eh.
    destruct (ap_lev Ac) as (_ & _ & V). destruct (_ <? _)%Z; injection Eh as _ <-; [reflexivity|].
    destruct (lh_init _) eqn:Ei; [apply V; reflexivity|reflexivity]. }
  subst lid. rewrite Ecur, Esig in H7. unfold drop_level in H7. cbv zeta in H7.
  replace (1000 * s_nosignal s <=? ts - ts)%Z with false in H7 by (symmetry; apply Z.leb_gt; zlia).
  replace (1000 * s_noaction s <=? ts - ts)%Z with false in H7 by (symmetry; apply Z.leb_gt; zlia). cbn [andb] in H7.
  apply outdoor_at in H6; [|exact U2|apply Ac]. destruct H6 as [O1 ->].
  enough (G : p_empty (oc_pos oc) = false).
  { destruct (output_status _ _ _ _ _ _ HW H8 G) as (G1 & _). exact G1. }
  unfold locate in H7. rewrite (known_has _ HL) in H7. inv_bind H7. apply get_L in Ha. subst a. inv_bind Hb. destruct a as [kn [st inp]].
  destruct (zone_fix _ _ X2 Hlr Ha) as (-> & P1 & P2 & P3).
  assert (Pz := zone_at _ _ X2 Ha).
  destruct (fuse_positions _ _ _ _ _ _) as [po f] eqn:Ef. inv_bind Hb0. destruct a as [[[az azv] ph] pg].
  inv_bind Hb. destruct a as [po1 p]. injection Hb0 as <-. cbn [oc_pos].
  assert (Hf : f = inp /\ sm_ready s po).
  { unfold fuse_positions in Ef. injection Ef as <- <-. unfold fill_states. cbn [p_empty pos0]. rewrite P1, (pa_out (ap_post Ac)).
    split; [|exact Hready]. unfold fused. cbn [p_empty pos0 negb po_out po_in]. rewrite andb_false_r.
    destruct (_ && _); [reflexivity|]. rewrite orb_true_r. reflexivity. }
  destruct Hf as [-> Hrp].
  apply expiry in Ha1; [|intros _ E1; apply L_named; congruence|exact Hrp]. destruct Ha1 as (_ & _ & G).
  destruct G as (sm & tm & r & _ & _ & G).
  - intros [D|[[_ D]|D]]; [congruence| |unfold too_old in D; rewrite P2 in D; zlia].
    destruct Pz as [[Q _]|(_ & x & y & Qx & Qy & Q1 & Q2)]; [congruence|]. apply D. clear D.
    destruct HK as (x0 & y0 & x1 & y1 & (B1 & B2 & B3 & B4) & C1 & C2 & C3 & C4 & C5 & C6).
    rewrite B1, B2, B3, B4, Qx, Qy, !rx_leb. repeat split; apply Rleb_true; lra.
  - destruct (p_empty p) eqn:Ep; [|reflexivity]. destruct (proj1 G eq_refl) as ((St & _) & _). congruence.
Qed.

(** ** The clock of the signal buffer *)
Context (Hun : s_unknown s = false) (Hsd : sound k).
Notation bcur c := (b_cur (pp_buf (c_pre c))).
Notation blast c := (b_last (pp_buf (c_pre c))).
Lemma accepted_on r ts : hears_only col L K (mkSt (MRadio r) ts) -> accepted_radio s col r -> In (r_id r) (map fst (l_txs L)).
Proof.
  intros Hm (_ & [E|(b & l & a & t & E & _ & Ht & _)] & _); [congruence|].
  apply alookup_In in Ht. destruct (Hm l t) as [-> _]; [rewrite E; apply in_or_app; right; left; reflexivity|exact Ht|].
  apply (in_map fst) in Ht. exact Ht.
Qed.
Lemma extract_clock p lm p' rs : extract_radio s (cf_buf k) col p lm = Ok (p', rs) ->
  b_cur (pp_buf p') = b_cur (pp_buf p) /\
  ((b_cur (pp_buf p) - b_last (pp_buf p) < bc_shift (cf_buf k))%Z /\ b_last (pp_buf p') = b_last (pp_buf p) \/
   (bc_shift (cf_buf k) <= b_cur (pp_buf p) - b_last (pp_buf p))%Z /\ b_last (pp_buf p') = b_cur (pp_buf p)).
Proof.
  intros H. unfold extract_radio in H. destruct (buffer_extract (cf_buf k) (pp_buf p) lm) as [b out] eqn:E.
  inv_bind H. inv_bind Hb. injection Hb0 as <- <-. cbn [pp_buf]. unfold buffer_extract in E. cbv zeta in E.
  destruct (Z.ltb_spec (b_cur (pp_buf p) - b_last (pp_buf p)) (bc_shift (cf_buf k))) as [T|T]; [injection E as <- <-; cbn; auto|].
  destruct (_ && _); [injection E as <- <-; cbn; auto|]. destruct (_ =? _)%Z; injection E as <- <-; cbn; auto.
Qed.
Lemma step_clock e c m c' o : nav_step e k c m = Ok (c', o) ->
  exists cur last, bcur c' = cur /\
  ((cur - last < bc_shift (cf_buf k))%Z /\ blast c' = last \/ (bc_shift (cf_buf k) <= cur - last)%Z /\ blast c' = cur) /\
  (signal s col m /\ cur = st_ts m /\ last = (if (bcur c =? 0)%Z then st_ts m else blast c) \/
   ~ signal s col m /\ cur = bcur c /\ last = blast c).
Proof.
  intros H. destruct (nav_step_inv _ _ _ _ H) as (pre & sf & mi & pre1 & rs & det & lev & lid & outd & outp & oc & ns
    & H1 & H2 & H3 & H4 & H5 & H6 & H7 & H8 & ->). cbn [c_pre].
  apply extract_clock in H3. destruct H3 as [C1 C2]. exists (b_cur (pp_buf pre)), (b_last (pp_buf pre)).
  split; [exact C1|]. split; [exact C2|].
  destruct m as [[r|d|d] ts].
  - destruct (update_radio_spec s (c_pre c) r ts HW) as (p1 & E & _ & _ & _ & [(A & _ & Eb)|(A & _ & Eb)]); rewrite E in H1;
      injection H1 as <-; rewrite Eb.
    + left. split; [exists r; auto|]. split; reflexivity.
    + right. split; [|auto]. intros (r' & E1 & E2). injection E1 as <-. tauto.
  - right. injection H1 as <-. split; [intros (r' & E1 & _); discriminate|auto].
  - right. injection H1 as <-. split; [intros (r' & E1 & _); discriminate|auto].
Qed.
(** all signals so far came at [T] or before *)
Definition past (T : Z) (c : client RX) : Prop := (bcur c <= T /\ (bcur c = 0 \/ blast c <= T))%Z.
Lemma past_step T e c m c' o : (st_ts m <= T)%Z -> past T c -> nav_step e k c m = Ok (c', o) -> past T c'.
Proof.
  intros Ht [P1 P2] H. unfold past. destruct (step_clock _ _ _ H) as (cur & last & -> & [[A ->]|[A ->]] & [(_ & E1 & E2)|(_ & E1 & E2)]);
    destruct (Z.eqb_spec (bcur c) 0); zlia.
Qed.
Record going (c : client RX) : Prop := mkGo {
  go_place : at_place c; go_loud : loud c; go_ready : sm_ready s (c_post c); go_inv : inv k c }.
Lemma going_states c l : going c -> going (with_states c l).
Proof. intros [A B C D]. constructor; [apply at_states, A|exact B|exact C|apply inv_states, D]. Qed.
Lemma going_step e c m c' o : going c -> hears_only col L K m -> nav_step e k c m = Ok (c', o) -> going c'.
Proof.
  intros [A B C D] Hm H. constructor.
  - eapply at_step; eassumption.
  - eapply loud_step; eassumption.
  - eapply ready_step; try eassumption; apply f0_eqb.
  - eapply inv_step; try eassumption. apply f0_eqb.
Qed.
Lemma close_fix e c m c' o : going c -> hears_only col L K m -> signal s col m ->
  (bc_shift (cf_buf k) <= st_ts m - (if bcur c =? 0 then st_ts m else blast c))%Z -> nav_step e k c m = Ok (c', o) -> o_status o = OK /\ fix_in L K o.
Proof.
  intros [A B C D] Hm (r & Er & Hr) Hg H. destruct m as [d ts]. cbn [st_data st_ts] in *. subst d.
  assert (G : o_status o = OK); [|split; [exact G|eapply at_step; eassumption]].
  eapply fix_step; try eassumption. eapply accepted_on; eassumption.
Qed.
Lemma run_fix T e ms mz : forall c c' os, going c -> (bcur c <> 0 /\ blast c <= T /\ bcur c - blast c < bc_shift (cf_buf k))%Z ->
  Forall (hears_only col L K) (ms ++ [mz]) -> Forall (fun m => (st_ts m <> 0)%Z) (ms ++ [mz]) ->
  signal s col mz -> (T + bc_shift (cf_buf k) <= st_ts mz)%Z ->
  process e k c (ms ++ [mz]) = Ok (c', os) -> Exists (fun o => o_status o = OK /\ fix_in L K o) os.
Proof.
  induction ms as [|m ms IH]; intros c c' os G (B1 & B2 & B3) Hh H0 Hz HT H; cbn [app process] in H; inv_bind H; destruct a as [c1 o1];
    inv_bind Hb; destruct a as [c2 os2]; injection Hb0 as <- <-; inversion Hh; inversion H0; subst.
  - left. eapply close_fix; try eassumption. destruct (Z.eqb_spec (bcur c) 0); zlia.
  - destruct (step_clock _ _ _ Ha) as (cur & last & E1 & E2 & E3).
    destruct E3 as [(S & -> & ->)|(S & -> & ->)].
    + destruct E2 as [[E2 E4]|[E2 E4]]; [|left; eapply close_fix; eassumption].
      right. apply (IH c1 c2 os2); [eapply going_step; eassumption| |assumption..]. rewrite E1, E4.
      destruct (Z.eqb_spec (bcur c) 0); [tauto|auto].
    + right. apply (IH c1 c2 os2); [eapply going_step; eassumption|rewrite E1; destruct E2 as [[E2 ->]|[E2 _]]; zlia|assumption..].
Qed.
Lemma batch_fix e c ma ms c' os : going c -> past (st_ts ma) c ->
  Forall (hears_only col L K) (ma :: ms) -> Forall (fun m => (st_ts m <> 0)%Z) (ma :: ms) -> signal s col ma ->
  (ms = [] /\ (bc_shift (cf_buf k) <= 0)%Z \/
   exists t mz, ms = t ++ [mz] /\ signal s col mz /\ (st_ts ma + bc_shift (cf_buf k) <= st_ts mz)%Z) ->
  process e k c (ma :: ms) = Ok (c', os) -> Exists (fun o => o_status o = OK /\ fix_in L K o) os.
Proof.
  intros G [P1 P2] Hh H0 Ha Hz H. cbn [process] in H. inv_bind H. destruct a as [c1 o1]. inv_bind Hb. destruct a as [c2 os2].
  injection Hb0 as <- <-. inversion Hh. inversion H0. subst.
  destruct (step_clock _ _ _ Ha0) as (cur & last & E1 & E2 & E3).
  destruct E3 as [(_ & -> & El)|(S & _)]; [|tauto].
  destruct E2 as [[E2 E4]|[E2 E4]]; [|left; eapply close_fix; try eassumption; rewrite El in E2; exact E2].
  assert (Hl : (last <= st_ts ma)%Z) by (destruct (Z.eqb_spec (bcur c) 0); zlia).
  destruct Hz as [[-> Hs]|(t & mz & -> & Sz & HT)]; [exfalso; zlia|].
  right. apply (@run_fix (st_ts ma) e t mz c1 c2 os2); [eapply going_step; eassumption| |assumption..]. rewrite E1, E4. auto.
Qed.
Lemma going_history e T bs c c' os : going c -> past T c -> Forall (Forall (fun m => hears_only col L K m /\ (st_ts m <= T)%Z)) bs ->
  navigate_all e k c bs = Ok (c', os) -> going c' /\ past T c'.
Proof.
  intros G P Hb H.
  eapply (@history_on RX _ SO e k (fun m => hears_only col L K m /\ (st_ts m <= T)%Z) (fun c => going c /\ past T c) (fun _ => True)); try eassumption.
  - intros c0 l [A B]. split; [apply going_states, A|exact B].
  - intros c0 m c1 o [A B] [C D] E. split; [|exact I]. split; [eapply going_step; eassumption|eapply past_step; eassumption].
  - auto.
Qed.
Lemma going0 g : s_type (st_data (g_sensor g)) <> LOCATION -> going (client0 g s).
Proof.
  intros Hg. constructor; [apply at0, Hg|constructor|right; left; reflexivity|apply inv0].
Qed.
End Place.

Lemma place {SO : Sorter} e (k : config RX) (L : level RX) (K : rect) g bs c os :
  wf_collector (cf_col k) -> has_level (cf_col k) "" = false -> In L (col_levels (cf_col k)) -> on_map L K ->
  s_algo (cf_set k) <> KNN -> s_radiomap (cf_set k) = false -> s_graphproj (cf_set k) = false ->
  (s_usesmooth (cf_set k) = false /\ s_timesmooth (cf_set k) = false) \/ one_spot K ->
  s_type (st_data (g_sensor g)) <> LOCATION -> Forall (Forall (hears_only (cf_col k) L K)) bs ->
  navigate_all e k (client0 g (cf_set k)) bs = Ok (c, os) ->
  Forall (Forall (fun o => o_status o = OK -> fix_in L K o)) os.
Proof.
  intros. eapply at_history; try eassumption. apply at0; assumption.
Qed.

Lemma place_fix {SO : Sorter} e s gs (k : config RX) (L : level RX) (K : rect) g bs c os ma ms c' os' :
  built s gs k -> NoDup (map (@gl_id RX) gs) -> ~ In ""%string (map (@gl_id RX) gs) -> In L (col_levels (cf_col k)) -> on_map L K ->
  s_algo s <> KNN -> s_radiomap s = false -> s_graphproj s = false ->
  (s_usesmooth s = false /\ s_timesmooth s = false) \/ one_spot K -> plain s ->
  (0 < pc_dead (cf_post k))%Z ->
  s_type (st_data (g_sensor g)) <> LOCATION ->
  Forall (Forall (fun m => hears_only (cf_col k) L K m /\ (st_ts m <= st_ts ma)%Z)) bs ->
  navigate_all e k (client0 g s) bs = Ok (c, os) ->
  time_sorted (ma :: ms) -> (0 < st_ts ma)%Z -> Forall (hears_only (cf_col k) L K) (ma :: ms) -> signal s (cf_col k) ma ->
  (ms = [] /\ (bc_shift (cf_buf k) <= 0)%Z \/
   exists t mz, ms = t ++ [mz] /\ signal s (cf_col k) mz /\ (st_ts ma + bc_shift (cf_buf k) <= st_ts mz)%Z) ->
  navigate e k c (ma :: ms) = Ok (c', os') ->
  Exists (fun o => o_status o = OK /\ fix_in L K o) os'.
Proof.
  intros B N1 N2 HL HK A1 A2 A3 A4 Hpl S2 Hg Hb H T T0 Hh Sa Hz H'. destruct (built_sound B N1 N2) as [Hsd Es].
  subst s. destruct Hpl as [Q1 Q2 Q3 Q4 Q5 Q6 (cu & Hcu & Hcu0) Q8 Q9].
  rewrite navigate_process in H' by discriminate. rewrite accepted_sorted in H' by exact T.
  assert (P : past (st_ts ma) (client0 g (cf_set k))) by (clear -T0; split; cbn; lia).
  assert (G : going k L K cu c /\ past (st_ts ma) c).
  { eapply going_history; try eassumption; try apply Hsd. eapply going0; eassumption. }
  destruct G as [G1 G2].
  assert (G3 : going k L K cu (clear_states c)).
  { destruct G1 as [G3 G4 G5 G6]. constructor; [exact (at_states [] G3)|exact G4|exact G5|exact (inv_states [] G6)]. }
  assert (T1 : Forall (fun m => (st_ts m <> 0)%Z) (ma :: ms)).
  { clear -T T0. unfold time_sorted in T. cbn [map] in T. apply StronglySorted_inv in T. destruct T as [_ T]. constructor; [lia|].
    rewrite Forall_map in T. eapply Forall_impl; [|exact T]. cbn. intros. lia. }
  eapply batch_fix; try eassumption; apply Hsd.
Qed.
