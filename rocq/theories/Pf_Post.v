(** Proofs of C31-C35. *)
From Coq Require Import Reals Lra Lia.
From Verif Require Import Lib NumReal LibR Postproc Client Spec_Preproc Spec_Client Spec_Post Pf_Client Pf_ClientInv Pf_ClientThrow.
Set Implicit Arguments.

Local Open Scope R_scope.

Lemma rdiv1000 z : fofZ z /! fofZ 1000 = (Some (IZR z / 1000) : RX).
Proof. apply (@rx_div (IZR z) 1000). lra. Qed.
Lemma delay_real ts t : delay ts t = (Some (rdelay ts t) : RX).
Proof.
  unfold delay, rdelay, age. destruct (Z.leb_spec t ts) as [H|H].
  - rewrite rdiv1000. f_equal. rewrite Rmax_right; [reflexivity|]. assert (0 <= IZR (ts - t)) by (apply IZR_le; lia). lra.
  - rewrite rx_f0. f_equal. rewrite Rmax_left; [reflexivity|]. assert (IZR (ts - t) <= 0) by (apply IZR_le; lia). lra.
Qed.
Lemma rdelay_pos ts t : 0 <= rdelay ts t. Proof. apply Rmax_l. Qed.
Lemma get_dist_real x1 y1 x2 y2 : get_dist (Some x1 : RX) (Some y1) (Some x2) (Some y2) = Some (rdist x1 y1 x2 y2).
Proof.
  unfold get_dist, rdist. rewrite !rx_sub, !rx_mul, rx_add. apply rx_sqrt.
  assert (A := Rle_0_sqr (x1 - x2)). assert (B := Rle_0_sqr (y1 - y2)). unfold Rsqr in *. lra.
Qed.

(** ** C31 *)
Lemma prior_dev_pos s v pd old bor prev d ts : real_settings s v pd old bor -> 0 < d ->
  (p_empty prev = true \/ (p_ts prev <= ts)%Z) ->
  exists r, prior_dev s prev (Some d : RX) ts = Some r /\ 0 < r.
Proof.
  intros S Hd Ht. unfold prior_dev. rewrite (rs_prior S), (rs_speed S). assert (H0 := rs_prior0 S). assert (Hv := rs_speed0 S).
  destruct (p_empty prev); [exists pd; auto|]. destruct Ht as [Ht|Ht]; [discriminate|].
  rewrite rx_ofZ, rx_mul, rx_ofZ, rx_div by lra. rewrite rx_add, rx_fmin. eexists. split; [reflexivity|].
  apply Rmin_glb_lt; [exact H0|]. assert (0 <= IZR (ts - p_ts prev)) by (apply IZR_le; lia).
  assert (0 <= v * IZR (ts - p_ts prev)) by (apply Rmult_le_pos; assumption). lra.
Qed.
Lemma fill_good s v pd old bor o pin pout : real_settings s v pd old bor -> good_post o -> good_pos pin -> good_pos pout ->
  (p_empty pin = true \/ p_empty (po_in o) = true \/ (p_ts (po_in o) <= p_ts pin)%Z) ->
  (p_empty pout = true \/ p_empty (po_out o) = true \/ (p_ts (po_out o) <= p_ts pout)%Z) ->
  good_post (fill_states s o pin pout).
Proof.
  intros S ((i & Ei & Hi) & (t & Et & Ht) & Gi & Gt) Gpi Gpo Ti To. unfold fill_states. rewrite Ei, Et.
  assert (A : forall (p : position RX) prev d, 0 < d -> good_pos p -> good_pos prev ->
     p_empty p = false -> (p_empty p = true \/ p_empty prev = true \/ (p_ts prev <= p_ts p)%Z) ->
     exists r, (prior_dev s prev (Some d) (p_ts p) +! p_dev p) /! fofZ 2 = Some r /\ 0 < r).
  { intros p prev d Hd Gp Gprev He Hts. destruct Gp as [Gp|(x & y & dd & (_ & _ & Ed) & Hdd)]; [congruence|].
    destruct (@prior_dev_pos s v pd old bor prev d (p_ts p) S Hd) as (r & Er & Hr); [destruct Hts as [H|H]; [congruence|exact H]|].
    rewrite Er, Ed, rx_add, rx_ofZ, rx_div by lra. eexists; split; [reflexivity|]. lra. }
  destruct (p_empty pin) eqn:Epi, (p_empty pout) eqn:Epo; unfold good_post; cbn [po_idev po_odev po_in po_out].
  - eauto 10.
  - destruct (A pout (po_out o) t Ht Gpo Gt Epo) as (r & Er & Hr); [rewrite Epo; exact To|]. rewrite Er. eauto 10.
  - destruct (A pin (po_in o) i Hi Gpi Gi Epi) as (r & Er & Hr); [rewrite Epi; exact Ti|]. rewrite Er. eauto 10.
  - destruct (A pout (po_out o) t Ht Gpo Gt Epo) as (r & Er & Hr); [rewrite Epo; exact To|].
    destruct (A pin (po_in o) i Hi Gpi Gi Epi) as (r' & Er' & Hr'); [rewrite Epi; exact Ti|]. rewrite Er, Er'. eauto 10.
Qed.
Lemma good0 s v pd old bor : real_settings s v pd old bor -> good_post (post0 s).
Proof.
  intros S. unfold good_post, post0. cbn. rewrite (rs_prior S). assert (H := rs_prior0 S).
  repeat split; [exists pd; auto..|left; reflexivity|left; reflexivity].
Qed.

Lemma fused_real s v pd old bor o ts pin pout st i t : real_settings s v pd old bor -> good_post o ->
  po_idev o = Some i -> po_odev o = Some t ->
  let f := fused s o ts pin pout st in
  let a := v * rdelay ts (p_ts (po_in o)) + i in
  let b := v * rdelay ts (p_ts (po_out o)) + t in
  (s_instgps s = true /\ p_empty pout = false /\ f = pout) \/
  (s_prefindoor s = true /\ p_empty pin = false /\ st = OK /\ f = pin) \/
  ((s_gps s = false \/ p_empty (po_out o) = true) /\ f = po_in o) \/
  (p_empty (po_in o) = true /\ f = po_out o) \/
  (old < rdelay ts (p_ts (po_in o)) /\ f = po_out o) \/
  (old < rdelay ts (p_ts (po_out o)) /\ f = po_in o) \/
  (rdelay ts (p_ts (po_in o)) <= old /\ rdelay ts (p_ts (po_out o)) <= old /\ s_gps s = true /\
   p_empty (po_in o) = false /\ p_empty (po_out o) = false /\
   exists xi yi di xt yt dt, at_xy (po_in o) xi yi di /\ at_xy (po_out o) xt yt dt /\
   if s_fusegps s && Rltb (rdist xi yi xt yt) (di + dt + bor) then fuses (po_in o) (po_out o) a b f /\ p_empty f = false
   else f = if Rltb a b then po_in o else po_out o).
Proof.
  intros S ((i' & Ei & Hi) & (t' & Et & Ht) & Gi & Gt) E1 E2 f a b. rewrite Ei in E1; injection E1 as ->. rewrite Et in E2; injection E2 as ->.
  subst f. unfold fused.
  destruct (s_instgps s && negb (p_empty pout)) eqn:C1.
  { left. apply andb_true_iff in C1. rewrite negb_true_iff in C1. tauto. }
  destruct (s_prefindoor s && negb (p_empty pin) && status_eqb st OK) eqn:C2.
  { right; left. apply andb_true_iff in C2. rewrite andb_true_iff, negb_true_iff in C2. destruct C2 as ([? ?] & ?).
    repeat split; auto. destruct st; cbn in *; congruence. }
  destruct (negb (s_gps s) || p_empty (po_out o)) eqn:C3.
  { do 2 right; left. apply orb_true_iff in C3. rewrite negb_true_iff in C3. tauto. }
  apply orb_false_iff in C3. rewrite negb_false_iff in C3. destruct C3 as [C3 C4].
  destruct (p_empty (po_in o)) eqn:C5; [do 3 right; left; auto|].
  do 4 right. rewrite !delay_real. rewrite (rs_old S), !rx_ltb. fold a b.
  destruct (Rltb old (rdelay ts (p_ts (po_in o)))) eqn:C6; [left; apply Rltb_true in C6; auto|].
  destruct (Rltb old (rdelay ts (p_ts (po_out o)))) eqn:C7; [right; left; apply Rltb_true in C7; auto|].
  right; right. apply Rltb_false in C6, C7.
  destruct Gi as [Gi|(xi & yi & di & (X1 & X2 & X3) & Hdi)]; [congruence|].
  destruct Gt as [Gt|(xt & yt & dt & (Y1 & Y2 & Y3) & Hdt)]; [congruence|].
  do 5 (split; [first [assumption|reflexivity]|]). exists xi, yi, di, xt, yt, dt. split; [repeat split; assumption|]. split; [repeat split; assumption|].
  rewrite (rs_speed S), (rs_border S), Ei, Et, !rx_mul, !rx_add, X1, X2, X3, Y1, Y2, Y3, get_dist_real, !rx_add, rx_ltb. fold a b.
  destruct (s_fusegps s && Rltb (rdist xi yi xt yt) (di + dt + bor)) eqn:C8.
  2:{ rewrite rx_ltb. destruct (Rltb a b); reflexivity. }
  assert (Hv := rs_speed0 S).
  assert (Ha : 0 < a). { unfold a. assert (0 <= v * rdelay ts (p_ts (po_in o))) by (apply Rmult_le_pos; [exact Hv|apply rdelay_pos]). lra. }
  assert (Hb : 0 < b). { unfold b. assert (0 <= v * rdelay ts (p_ts (po_out o))) by (apply Rmult_le_pos; [exact Hv|apply rdelay_pos]). lra. }
  split; [|reflexivity].
  exists xi, yi, di, xt, yt, dt, (a / (a + b)). cbn [p_x p_y p_dev p_ts p_prov p_level].
  rewrite !rx_mul, !rx_add, !rx_div by lra. rewrite rx_fmin.
  assert (W : a / (a + b) * (a + b) = a) by (field; lra).
  assert (W0 : 0 < a / (a + b)) by (apply Rdiv_lt_0_compat; lra).
  split; [repeat split; assumption|]. split; [repeat split; assumption|].
  split; [split; [exact W0|]; nra|].
  split; [f_equal; field; lra|]. split; [f_equal; field; lra|].
  split; [split; intros; nra|]. split; [split; intros; nra|].
  repeat split; reflexivity.
Qed.

(** ** C32 *)
Section Exp.
Context {F : Type} {NF : Num F}.
Lemma inside_map_spec s (l : level F) f : inside_map s l f = false <-> off_map s l f.
Proof.
  unfold inside_map, off_map, covered_by_box. rewrite orb_false_iff.
  split; intros [H1 H2]; (split; [exact H1|]).
  - intros (A & B & C & D). rewrite A, B, C, D in H2. discriminate.
  - match goal with |- ?x = false => destruct x eqn:E; [|reflexivity] end. exfalso. apply H2.
    apply andb_true_iff in E. destruct E as [E E4]. apply andb_true_iff in E. destruct E as [E E3].
    apply andb_true_iff in E. destruct E as [E1 E2]. auto.
Qed.
Definition ab_ok (m : smoother F) : Prop := match m with SAB a => p_empty (ab_pos a) = false | SLsq _ => True end.
Lemma smooth_nonempty s al m p m' r : p_empty p = false -> ab_ok m ->
  @sm_smooth F NF s al m p = Ok (m', r) -> p_empty r = false /\ ab_ok m'.
Proof.
  intros Hp Hm. destruct m as [a|q]; cbn [sm_smooth ab_ok] in *.
  - unfold ab_smooth. destruct (_ <? _)%Z.
    + cbv zeta. match goal with |- context [if ?b then (mkAB true f0 f0 p, p) else _] => destruct b end; intros H; injection H as <- <-; [auto|].
      cbn [ab_ok ab_pos]. destruct (fisfinite _ && fisfinite _), (s_accsmooth s); cbn; auto.
    + intros H. injection H as <- <-. auto.
  - intros H. inv_bind H. destruct a as [q' r']. injection Hb as <- <-. split; [|exact I].
    unfold lsq_smooth in Ha. destruct (negb _); [injection Ha as <- <-; exact Hp|].
    inv_bind Ha. inv_bind Hb. destruct (pf_predict _ a _) as [fx xs]. destruct (pf_predict _ a0 _) as [fy ys].
    destruct (_ && negb _); [injection Hb0 as <- <-; exact Hp|]. injection Hb0 as <- <-. destruct (_ && _); exact Hp.
Qed.
Lemma time_nonempty (m : tsm F) p ts : p_empty p = false -> p_empty (snd (time_smooth m p ts)) = false.
Proof.
  intros Hp. unfold time_smooth. destruct (_ <? _)%Z; [exact Hp|]. destruct (_ || _) eqn:E1; [exact Hp|].
  destruct (p_empty (tm_prev m) || p_empty (tm_next m) || p_empty p) eqn:E; [exact Hp|].
  assert (H : p_empty (tm_next m) = false) by (destruct (p_empty (tm_prev m)), (p_empty (tm_next m)); cbn in *; congruence).
  destruct (_ <? _)%Z; cbn [tm_next tm_prev]; (destruct (_ =? _)%Z; [assumption|]); destruct (_ <! _); assumption.
Qed.
Lemma project_keeps s (l : level F) p q : project s l p = Ok q ->
  p_empty q = p_empty p /\ p_level q = p_level p /\ p_ts q = p_ts p /\ (s_graphproj s = false -> q = p).
Proof.
  unfold project. destruct (s_graphproj s); intros H; [|injection H as <-; auto]. inv_bind H. destruct (_ && _); injection Hb as <-; auto.
  repeat split; discriminate.
Qed.
Lemma dropped_dec s c (l : level F) f ts : {dropped s c l f ts} + {~ dropped s c l f ts}.
Proof.
  unfold dropped, too_old. destruct (p_empty f); [left; auto|].
  destruct (inside_map s l f) eqn:E.
  - destruct (Z_le_dec (pc_dead c) (ts - p_ts f)); [left; auto|]. right. intros [H|[H|H]]; [discriminate| |contradiction].
    apply inside_map_spec in H. congruence.
  - left. right; left. apply inside_map_spec; exact E.
Qed.
Lemma processed_dropped s c o f ts lm (l : level F) : dropped s c l f ts ->
  processed s c o f ts lm l =
  Ok (mkPost (po_idev o) (po_odev o) (po_time o) (po_sm o) (po_in o) (po_out o) (po_last o) (po_extr o) (last_step o lm), pos0).
Proof.
  unfold dropped, processed, last_step. cbv zeta. destruct (p_empty f); [reflexivity|].
  destruct (inside_map s l f) eqn:E; cbn [negb]; [|reflexivity].
  intros [H|[H|H]]; [discriminate| |].
  - apply inside_map_spec in H. congruence.
  - unfold too_old in H. destruct (Z.leb_spec (pc_dead c) (ts - p_ts f)); [reflexivity|lia].
Qed.
Lemma processed_kept s c o f ts lm (l : level F) : ~ dropped s c l f ts ->
  processed s c o f ts lm l =
  ('(sm, tm, r) <- smoothing s o l f ts ;;
   let '(last, extr) := hold_or_move s c o (last_step o lm) ts r in
   last <- project s l last ;;
   Ok (mkPost (po_idev o) (po_odev o) tm sm (po_in o) (po_out o) (clamp_round (l_box l) last) extr (last_step o lm),
       clamp_round (l_box l) last)).
Proof.
  unfold dropped, processed, last_step. cbv zeta. intros H. destruct (p_empty f); [tauto|].
  destruct (inside_map s l f) eqn:E; cbn [negb]; [|apply inside_map_spec in E; tauto].
  unfold too_old in H. destruct (Z.leb_spec (pc_dead c) (ts - p_ts f)); [tauto|].
  cbn [po_last po_sm po_time po_in po_out po_idev po_odev po_extr]. unfold smoothing.
  destruct (s_usesmooth s).
  - destruct (String.eqb _ _); cbn [negb]; destruct (sm_smooth _ _ _ _) as [[sm r]| | |]; try reflexivity; cbn [bind];
    (destruct (s_timesmooth s); [destruct (time_smooth _ _ _)|]; reflexivity).
  - cbn [bind]. destruct (s_timesmooth s); [destruct (time_smooth _ _ _)|]; reflexivity.
Qed.
Lemma smoothing_ready s o (l : level F) f ts sm tm r : p_empty f = false -> p_level f <> ""%string -> sm_ready s o ->
  smoothing s o l f ts = Ok (sm, tm, r) -> p_empty r = false /\ (s_usesmooth s = false \/ ab_ok sm).
Proof.
  intros He Hl Hr H. unfold smoothing in H. inv_bind H. destruct a as [sm1 r1].
  assert (A : p_empty r1 = false /\ (s_usesmooth s = false \/ ab_ok sm1)).
  { destruct (s_usesmooth s) eqn:Eu; [|injection Ha as <- <-; auto].
    match type of Ha with sm_smooth _ _ ?m _ = _ => assert (C : ab_ok m) end; [|destruct (@smooth_nonempty s _ _ f sm1 r1 He C Ha); auto].
    destruct (String.eqb_spec (p_level (po_last o)) (p_level f)) as [E|E].
    - destruct Hr as [Hr|[Hr|Hr]]; [congruence|congruence|exact Hr].
    - destruct (po_sm o); cbn; auto. }
  destruct A as [A B]. destruct (s_timesmooth s); injection Hb as <- <- <-; [|auto]. split; [apply time_nonempty; exact A|exact B].
Qed.

(** the output of a call that is not dropped *)
Lemma processed_inv s c o f ts lm (l : level F) o' p : ~ dropped s c l f ts ->
  processed s c o f ts lm l = Ok (o', p) ->
  exists sm tm r q, smoothing s o l f ts = Ok (sm, tm, r) /\
    project s l (fst (hold_or_move s c o (last_step o lm) ts r)) = Ok q /\ p = clamp_round (l_box l) q /\
    o' = mkPost (po_idev o) (po_odev o) tm sm (po_in o) (po_out o) p
           (snd (hold_or_move s c o (last_step o lm) ts r)) (last_step o lm).
Proof.
  intros D H. rewrite (processed_kept _ _ D) in H. inv_bind H. destruct a as [[sm tm] r].
  destruct (hold_or_move _ _ _ _ _ _) as [la ex] eqn:E. inv_bind Hb. injection Hb0 as <- <-.
  exists sm, tm, r, a. rewrite E. auto.
Qed.
Lemma standing_spec s c step ts :
  (s_stops s && ((0 <? step)%Z && (pc_stopdet c <=? ts - step)%Z)) = true <-> @standing F s c step ts.
Proof. unfold standing. rewrite !andb_true_iff, Z.ltb_lt, Z.leb_le. tauto. Qed.
Lemma adopted_spec s c o r ts :
  ((pc_stopupd c <? ts - po_extr o)%Z && (get_dist (p_x (po_last o)) (p_y (po_last o)) (p_x r) (p_y r) <! s_stopsdist s)) = true
  <-> @adopted F NF s c o r ts.
Proof. unfold adopted. rewrite andb_true_iff, Z.ltb_lt. tauto. Qed.
Lemma hold_cases s c (o : post F) step ts r :
  (standing s c step ts /\ adopted s c o r ts /\ hold_or_move s c o step ts r = (pos_set_ts r ts, ts)) \/
  (standing s c step ts /\ ~ adopted s c o r ts /\ hold_or_move s c o step ts r = (pos_set_ts (po_last o) ts, po_extr o)) \/
  (~ standing s c step ts /\ hold_or_move s c o step ts r = (pos_set_dev (pos_set_ts r ts) (p_dev (po_in o)), po_extr o)).
Proof.
  assert (A := standing_spec s c step ts). assert (B := adopted_spec s c o r ts). unfold hold_or_move. cbv zeta.
  destruct (s_stops s && _) eqn:E1; [|right; right; split; [|reflexivity]; rewrite <- A; discriminate].
  destruct (_ && (get_dist _ _ _ _ <! _)) eqn:E2.
  - left. split; [apply A; reflexivity|]. split; [apply B; reflexivity|reflexivity].
  - right; left. split; [apply A; reflexivity|]. split; [rewrite <- B; discriminate|reflexivity].
Qed.

Theorem expiry s c o f ts lm (l : level F) o' p :
  (p_empty f = false -> p_level f <> ""%string) -> sm_ready s o ->
  processed s c o f ts lm l = Ok (o', p) ->
  sm_ready s o' /\
  (dropped s c l f ts -> p = pos0 /\ same_memory o o') /\
  (~ dropped s c l f ts -> exists sm tm r, smoothing s o l f ts = Ok (sm, tm, r) /\ p_empty r = false /\
     (p_empty p = true <-> standing s c (last_step o lm) ts /\ p_empty (po_last o) = true /\ ~ adopted s c o r ts)).
Proof.
  intros Hl Hr H. destruct (dropped_dec s c l f ts) as [D|D].
  - rewrite (processed_dropped _ _ D) in H. injection H as <- <-. split; [exact Hr|]. split; [|tauto].
    intros _. unfold same_memory. cbn. auto 12.
  - assert (Hf : p_empty f = false) by (destruct (p_empty f) eqn:E; [exfalso; apply D; left; exact E|reflexivity]).
    assert (X := H); apply processed_inv in X; [|exact D]; destruct X as (sm & tm & r & q & E1 & E2 & E3 & E4).
    assert (X := E1). apply smoothing_ready in X; [|exact Hf|exact (Hl Hf)|exact Hr]. destruct X as [Hre Hab].
    assert (X := E2). apply project_keeps in X. destruct X as (K1 & _).
    assert (Ep : p_empty p = p_empty q) by (rewrite E3; reflexivity).
    split; [subst o'; unfold sm_ready; cbn; destruct Hab as [Hab|Hab]; [left; exact Hab|right; right; destruct sm; exact Hab]|].
    split; [tauto|]. intros _. exists sm, tm, r. split; [exact E1|]. split; [exact Hre|].
    rewrite Ep, K1. destruct (hold_cases s c o (last_step o lm) ts r) as [(A & B & C)|[(A & B & C)|(A & C)]]; rewrite C; cbn.
    + rewrite Hre. split; [discriminate|tauto].
    + tauto.
    + rewrite Hre. split; [discriminate|tauto].
Qed.
End Exp.

(** the smoother of a reachable client is ready *)
Section Ready.
Context {F : Type} {NF : Num F} {SO : Sorter}.
Lemma fine_named (c : collector F) p : has_level c "" = false -> wf_collector c -> fine c p -> p_empty p = false -> p_level p <> ""%string.
Proof.
  intros Hn Hw [_ [H|H]] E L; [congruence|]. rewrite L in H. unfold known_level in H. apply in_map_iff in H. destruct H as (l & El & Hl).
  apply In_nth_error in Hl. destruct Hl as [i Hi]. assert (Hx : alookup ""%string (col_index c) = Some i) by (apply Hw; eauto).
  unfold has_level, amem in Hn. rewrite Hx in Hn. discriminate.
Qed.
Lemma ready_step e k (c : client F) m c' o : (f0 =! f0) = true -> sound k -> inv k c -> sm_ready (cf_set k) (c_post c) ->
  nav_step e k c m = Ok (c', o) -> sm_ready (cf_set k) (c_post c').
Proof.
  intros H0 S I R H. destruct (nav_step_inv _ _ _ _ H) as (pre & sf & mi & pre1 & rs & det & lev & lid & outd & outp & oc & ns
    & H1 & H2 & H3 & H4 & H5 & H6 & H7 & H8 & ->). cbn [c_post].
  destruct (outdoor_fine _ _ _ _ _ _ (iv_outd I) H6) as [G1 G2].
  unfold locate in H7. destruct (has_level _ _).
  - inv_bind H7. rename a into l. inv_bind Hb. destruct a as [kn [st inp]].
    destruct (fuse_positions _ _ _ _ _ _) as [po f] eqn:Ef. inv_bind Hb0. destruct a as [[[az azv] ph] pg].
    inv_bind Hb. destruct a as [po1 p]. injection Hb0 as <-. cbn [oc_post].
    destruct (indoor_fine _ _ _ _ (get_level_in _ _ Ha) (iv_knn I) Ha0) as [G3 G4].
    destruct (fuse_fine (iv_post I) G4 G2 Ef) as [G5 G6].
    assert (X := Ha2). apply expiry in X; [apply X| |].
    + apply fine_named with (c := cf_col k); [apply S|apply S|exact G6].
    + unfold fuse_positions in Ef. injection Ef as <- _. unfold fill_states.
      destruct (p_empty inp), (p_empty outp); exact R.
  - destruct (negb _); injection H7 as <-; exact R.
Qed.
Theorem ready_reachable e s gs k (c : client F) : (f0 =! f0) = true -> built s gs k -> NoDup (map (@gl_id F) gs) ->
  ~ In ""%string (map (@gl_id F) gs) -> reachable e k c -> sm_ready s (c_post c).
Proof.
  intros H0 Hb Hn He (g & bs & os & H). destruct (built_sound Hb Hn He) as [S Es].
  apply (@history_ind F NF SO e k (fun c => inv k c /\ sm_ready (cf_set k) (c_post c)) (fun _ => True)) in H.
  - rewrite <- Es. apply H.
  - intros c0 l [A B]. split; [apply inv_states; exact A|exact B].
  - intros c1 m c2 o [A B] Hs. split; [|exact I]. split; [eapply inv_step; eassumption|eapply ready_step; eassumption].
  - split; [apply inv0|]. right; left. reflexivity.
Qed.
End Ready.

(** ** C33 *)
Lemma round2_real x : round2 (Some x : RX) = Some (IZR (Int_part (x * 100)) / 100).
Proof. unfold round2. rewrite rx_ofZ, rx_mul. cbn [ffloor num_real rlift1]. apply (@rx_div (IZR (Int_part (x * 100))) 100). lra. Qed.
Lemma round2_spec x : exists y, round2 (Some x : RX) = Some y /\ centimetres y /\ 0 <= x - y < 1 / 100 /\
  forall z, IZR z / 100 <= x -> IZR z / 100 <= y.
Proof.
  rewrite round2_real. destruct (base_Int_part (x * 100)) as [A B]. eexists. split; [reflexivity|].
  split; [eexists; reflexivity|]. split; [lra|]. intros z H.
  assert (Hz : IZR z < IZR (Int_part (x * 100)) + 1) by lra.
  rewrite <- plus_IZR in Hz. apply lt_IZR in Hz. assert (IZR z <= IZR (Int_part (x * 100))) by (apply IZR_le; lia). lra.
Qed.
Lemma round2_cm x : centimetres x -> round2 (Some x : RX) = Some x.
Proof.
  intros [z Hz]. destruct (round2_spec x) as (y & E & [w Hw] & H & Hm). rewrite E. f_equal.
  specialize (Hm z ltac:(lra)). lra.
Qed.
Lemma clamp_real lo hi x : clamp (Some lo : RX) (Some hi) (Some x) = Some (Rmin (Rmax x lo) hi).
Proof. unfold clamp. rewrite rx_fmax, rx_fmin. reflexivity. Qed.
Lemma clamp_in lo hi x : lo <= hi -> lo <= Rmin (Rmax x lo) hi <= hi.
Proof. intros H. unfold Rmin, Rmax. destruct (Rle_dec x lo), (Rle_dec _ hi); lra. Qed.
Lemma clamp_id lo hi x : lo <= x <= hi -> Rmin (Rmax x lo) hi = x.
Proof. intros H. unfold Rmin, Rmax. destruct (Rle_dec x lo), (Rle_dec _ hi); lra. Qed.
Lemma clamp_round_in b x0 y0 x1 y1 p : real_box b x0 y0 x1 y1 -> x0 <= x1 -> y0 <= y1 -> centimetres x0 -> centimetres y0 ->
  xy_real p -> exists x y, p_x (clamp_round b p) = Some x /\ p_y (clamp_round b p) = Some y /\
    x0 <= x <= x1 /\ y0 <= y <= y1 /\ centimetres x /\ centimetres y.
Proof.
  intros (A & B & C & D) Hx Hy [zx Zx] [zy Zy] (x & y & Ex & Ey). unfold clamp_round. cbn [pos_set_xy p_x p_y].
  rewrite A, B, C, D, Ex, Ey, !clamp_real.
  assert (P := clamp_in x Hx). assert (Q := clamp_in y Hy).
  destruct (round2_spec (Rmin (Rmax x x0) x1)) as (u & -> & Cu & Hu & Mu).
  destruct (round2_spec (Rmin (Rmax y y0) y1)) as (w & -> & Cw & Hw & Mw).
  exists u, w. specialize (Mu zx ltac:(lra)). specialize (Mw zy ltac:(lra)).
  repeat split; auto; lra.
Qed.
Lemma clamp_round_near b x0 y0 x1 y1 (p : position RX) x y : real_box b x0 y0 x1 y1 -> p_x p = Some x -> p_y p = Some y ->
  x0 <= x <= x1 -> y0 <= y <= y1 -> exists x' y', p_x (clamp_round b p) = Some x' /\ p_y (clamp_round b p) = Some y' /\
    0 <= x - x' < 1 / 100 /\ 0 <= y - y' < 1 / 100.
Proof.
  intros (A & B & C & D) Ex Ey Hx Hy. unfold clamp_round. cbn [pos_set_xy p_x p_y].
  rewrite A, B, C, D, Ex, Ey, !clamp_real, !clamp_id by assumption.
  destruct (round2_spec x) as (u & -> & _ & Hu & _). destruct (round2_spec y) as (w & -> & _ & Hw & _). exists u, w. auto.
Qed.
Lemma clamp_round_fix b x0 y0 x1 y1 (p : position RX) x y : real_box b x0 y0 x1 y1 -> p_x p = Some x -> p_y p = Some y ->
  x0 <= x <= x1 -> y0 <= y <= y1 -> centimetres x -> centimetres y ->
  p_x (clamp_round b p) = Some x /\ p_y (clamp_round b p) = Some y.
Proof.
  intros (A & B & C & D) Ex Ey Hx Hy Cx Cy. unfold clamp_round. cbn [pos_set_xy p_x p_y].
  rewrite A, B, C, D, Ex, Ey, !clamp_real, !clamp_id, !round2_cm by assumption. auto.
Qed.

Lemma ab_out {F : Type} {NF : Num F} s al (a : absm F) p :
  let a' := fst (ab_smooth s al a p) in let r := snd (ab_smooth s al a p) in
  (a' = a /\ r = ab_pos a) \/ (ab_pos a' = r /\
   ((p_x r = p_x p /\ p_y r = p_y p) \/ (fisfinite (p_x r) = true /\ fisfinite (p_y r) = true))).
Proof.
  unfold ab_smooth. destruct (_ <? _)%Z; [right|left; auto]. cbv zeta.
  match goal with |- context [if ?b then (mkAB true f0 f0 p, p) else _] => destruct b end; [cbn; auto|].
  cbn [fst snd ab_pos]. split; [reflexivity|].
  destruct (fisfinite _ && fisfinite _) eqn:E; [|destruct (s_accsmooth s); auto].
  apply andb_true_iff in E. right. destruct (s_accsmooth s); exact E.
Qed.
Lemma finite_real (a : RX) : fisfinite a = true -> exists x, a = Some x.
Proof. destruct a; [eauto|discriminate]. Qed.
Definition sm_real (m : smoother RX) : Prop := match m with SAB a => xy_real (ab_pos a) | SLsq _ => True end.
Lemma smooth_real s al (m : smoother RX) p m' r : sm_real m -> xy_real p -> sm_smooth s al m p = Ok (m', r) -> sm_real m' /\ xy_real r.
Proof.
  intros Hm Hp. destruct m as [a|q]; cbn [sm_smooth sm_real] in *.
  - assert (A := ab_out s al a p). destruct (ab_smooth s al a p) as [a' r']. cbn [fst snd] in A. intros H; injection H as <- <-.
    cbn [sm_real]. destruct A as [[-> ->]|[E A]]; [auto|]. rewrite E.
    assert (xy_real r').
    { destruct A as [[E1 E2]|[E1 E2]]; [destruct Hp as (x & y & Hx & Hy); exists x, y; rewrite E1, E2; auto|].
      apply finite_real in E1, E2. destruct E1 as [u Hu], E2 as [w Hw]. exists u, w; auto. }
    auto.
  - intros H. inv_bind H. destruct a as [q' r']. injection Hb as <- <-. split; [exact I|].
    unfold lsq_smooth in Ha. destruct (negb _); [injection Ha as <- <-; exact Hp|].
    inv_bind Ha. inv_bind Hb. destruct (pf_predict _ a _) as [fx xs]. destruct (pf_predict _ a0 _) as [fy ys].
    destruct (_ && negb _); [injection Hb0 as <- <-; exact Hp|]. injection Hb0 as <- <-.
    destruct xs as [u|], ys as [w|]; try exact Hp. exists u, w. split; reflexivity.
Qed.
Lemma interp_real (a b k c : R) z : z <> 0%Z ->
  exists x, (Some a *! Some b +! Some c *! (fofZ z -! Some b)) /! fofZ z = (Some x : RX).
Proof.
  intros Hz. rewrite rx_ofZ, rx_sub, !rx_mul, rx_add. eexists. apply rx_div. intros E. apply eq_IZR in E. contradiction.
Qed.
Lemma time_real (m : tsm RX) p ts : xy_real (tm_prev m) -> xy_real (tm_next m) -> xy_real p ->
  let m' := fst (time_smooth m p ts) in xy_real (tm_prev m') /\ xy_real (tm_next m') /\ xy_real (snd (time_smooth m p ts)).
Proof.
  intros H1 H2 H3. unfold time_smooth. destruct (_ <? _)%Z; [cbn; auto|]. destruct (_ || _); [cbn; auto|].
  destruct (_ || _ || _); [cbn; auto|]. cbv zeta.
  set (m1 := if (p_ts (tm_next m) <? p_ts p)%Z then _ else m).
  assert (A : xy_real (tm_prev m1) /\ xy_real (tm_next m1)) by (unfold m1; destruct (_ <? _)%Z; cbn; auto).
  destruct A as [A B]. destruct (Z.eqb_spec (p_ts (tm_next m1)) (p_ts (tm_prev m1))) as [E|E]; [cbn; auto|].
  destruct (_ <! _); [cbn; auto|]. cbn [fst snd]. split; [exact A|]. split; [exact B|].
  destruct A as (a1 & a2 & A1 & A2), B as (b1 & b2 & B1 & B2).
  unfold xy_real. cbn [pos_set_ts pos_set_xy p_x p_y]. rewrite A1, A2, B1, B2.
  destruct (@interp_real b1 (IZR (ts - p_ts (tm_next m1))) 0 a1 (p_ts (tm_next m1) - p_ts (tm_prev m1))%Z) as [x Hx]; [lia|].
  destruct (@interp_real b2 (IZR (ts - p_ts (tm_next m1))) 0 a2 (p_ts (tm_next m1) - p_ts (tm_prev m1))%Z) as [y Hy]; [lia|].
  exists x, y. split; [exact Hx|exact Hy].
Qed.
Lemma dist_def (a b c d : RX) : fisnan (get_dist a b c d) = false -> (exists x, c = Some x) /\ (exists y, d = Some y).
Proof.
  destruct a, b, c, d; unfold get_dist; cbn; try discriminate; intros _; split; eexists; reflexivity.
Qed.
Lemma project_real s (l : level RX) p q : xy_real p -> project s l p = Ok q -> xy_real q.
Proof.
  intros Hp. unfold project. destruct (s_graphproj s); intros H; [|injection H as <-; exact Hp]. inv_bind H.
  destruct (negb (fisnan _) && _) eqn:E; injection Hb as <-; [|exact Hp].
  apply andb_true_iff in E. destruct E as [E _]. apply negb_true_iff in E. apply dist_def in E.
  destruct E as [[x Hx] [y Hy]]. exists x, y. auto.
Qed.
Lemma smoothing_real s o (l : level RX) f ts sm tm r : mem_real o -> xy_real f -> smoothing s o l f ts = Ok (sm, tm, r) ->
  sm_real sm /\ xy_real (tm_prev tm) /\ xy_real (tm_next tm) /\ xy_real r.
Proof.
  intros (H1 & H2 & H3 & H4) Hf H. unfold smoothing in H. inv_bind H. destruct a as [sm1 r1].
  assert (A : sm_real sm1 /\ xy_real r1).
  { destruct (s_usesmooth s); [|injection Ha as <- <-; auto]. eapply smooth_real; [|exact Hf|exact Ha].
    destruct (String.eqb _ _); [exact H4|]. destruct (po_sm o); cbn; auto. }
  destruct A as [A B]. destruct (s_timesmooth s); injection Hb as <- <- <-; [|auto].
  destruct (@time_real (po_time o) r1 ts H2 H3 B) as (C & D & E). auto.
Qed.
Lemma mem_real0 s : mem_real (post0 s).
Proof.
  assert (A : xy_real pos0) by (exists 0, 0; split; reflexivity).
  unfold mem_real, post0. cbn. repeat split; auto. destruct (s_abfilter s); cbn; auto.
Qed.
Lemma hold_real s c o step ts r : mem_real o -> xy_real r -> xy_real (fst (hold_or_move s c o step ts r)).
Proof.
  intros (H1 & _) Hr. destruct (hold_cases s c o step ts r) as [(_ & _ & ->)|[(_ & _ & ->)|(_ & ->)]]; cbn [fst];
  [destruct Hr as (x & y & A & B)|destruct H1 as (x & y & A & B)|destruct Hr as (x & y & A & B)]; exists x, y; auto.
Qed.
Theorem inside s c o f ts lm l o' p x0 y0 x1 y1 :
  real_box (l_box l) x0 y0 x1 y1 -> x0 <= x1 -> y0 <= y1 -> centimetres x0 -> centimetres y0 ->
  mem_real o -> xy_real f -> processed s c o f ts lm l = Ok (o', p) ->
  mem_real o' /\ (dropped s c l f ts /\ p = pos0 \/
    exists x y, p_x p = Some x /\ p_y p = Some y /\ x0 <= x <= x1 /\ y0 <= y <= y1 /\ centimetres x /\ centimetres y).
Proof.
  intros Hb Hx Hy Cx Cy Hm Hf H. destruct (dropped_dec s c l f ts) as [D|D].
  - rewrite (processed_dropped _ _ D) in H. injection H as <- <-. auto.
  - assert (X := H); apply processed_inv in X; [|exact D]; destruct X as (sm & tm & r & q & E1 & E2 & E3 & E4).
    assert (X := E1). apply smoothing_real in X; [|exact Hm|exact Hf]. destruct X as (A & B & C & Hr).
    assert (Hq := E2). apply project_real in Hq; [|apply hold_real; assumption].
    destruct (clamp_round_in Hb Hx Hy Cx Cy Hq) as (x & y & Px & Py & P). rewrite <- E3 in Px, Py.
    split; [|right; exists x, y; auto]. subst o'. unfold mem_real. cbn. repeat split; auto. exists x, y; auto.
Qed.

Lemma norm_small d : -180 < d <= 180 -> normalize_longitude (Some d : RX) = Some d.
Proof.
  intros H. unfold normalize_longitude. rewrite !rx_ofZ, rx_ltb, rx_leb.
  destruct (Rltb 180 d) eqn:E; [apply Rltb_true in E; lra|]. destruct (Rleb d (-180)) eqn:E2; [apply Rleb_true in E2; lra|]. reflexivity.
Qed.
Lemma gps_real la lo la0 lo0 : -90 <= la0 <= 90 -> 0 <= lo - lo0 <= 180 ->
  exists k m, 0 <= k /\ 0 < m /\
    gps_to_local (mkGeo (Some la : RX) (Some lo)) (mkGeo (Some la0) (Some lo0)) =
    mkXY (Some ((lo - lo0) * k)) (Some ((la - la0) * m)).
Proof.
  intros Ha Hl. unfold gps_to_local. cbn [lat lon]. rewrite !rx_sub, norm_small by lra.
  unfold deg_to_rad, equator_m, pole_m.
  change (fpi : RX) with (Some PI). rewrite !rx_ofZ, rx_mul, (@rx_div (la0 * PI)) by lra.
  assert (Hc : 0 <= cos (la0 * PI / 180)). { assert (P := PI_RGT_0). apply cos_ge_0; nra. }
  change (fcos (Some (la0 * PI / 180))) with (Some (cos (la0 * PI / 180)) : RX).
  rewrite rx_mul, !rx_div by lra. rewrite !rx_mul.
  do 2 eexists. split; [|split; [|reflexivity]]; lra.
Qed.
Lemma correct_real b x0 y0 x1 y1 : real_box b x0 y0 x1 y1 ->
  real_box (correct_box b) (Rmin x0 x1) (Rmin y0 y1) (Rmax x0 x1) (Rmax y0 y1).
Proof.
  intros (A & B & C & D). unfold real_box, correct_box. cbn [px py bmin bmax]. rewrite A, B, C, D, !rx_ltb.
  assert (M : forall a b, Rltb b a = true -> Rmin a b = b /\ Rmax a b = a).
  { intros ? ? E. apply Rltb_true in E. split; [apply Rmin_right|apply Rmax_left]; lra. }
  assert (M' : forall a b, Rltb b a = false -> Rmin a b = a /\ Rmax a b = b).
  { intros ? ? E. apply Rltb_false in E. split; [apply Rmin_left|apply Rmax_right]; lra. }
  destruct (Rltb x1 x0) eqn:E1; [apply M in E1|apply M' in E1]; (destruct (Rltb y1 y0) eqn:E2; [apply M in E2|apply M' in E2]);
  destruct E1 as [-> ->], E2 as [-> ->]; repeat split; assumption.
Qed.
Theorem geolevel_box g l la1 lo1 la2 lo2 : geo_box (gl_box g) la1 lo1 la2 lo2 -> local_level g = Ok l ->
  exists x1 y1, 0 <= x1 /\ 0 <= y1 /\ real_box (l_box l) 0 0 x1 y1.
Proof.
  intros (Hb & H1 & H2 & H3) E. unfold local_level in E. inv_bind E. injection Hb0 as <-. cbn [l_box].
  assert (Hc := correct_real Hb). unfold get_binding. destruct Hc as (A & B & _ & _). rewrite A, B. clear A B Ha.
  destruct Hb as (A & B & C & D). unfold local_box. rewrite A, B, C, D.
  assert (M : -90 <= Rmin la1 la2 <= 90) by (unfold Rmin; destruct (Rle_dec la1 la2); lra).
  assert (L1 : 0 <= lo1 - Rmin lo1 lo2 <= 180) by (unfold Rmin; destruct (Rle_dec lo1 lo2); unfold Rabs in H3; destruct (Rcase_abs _); lra).
  assert (L2 : 0 <= lo2 - Rmin lo1 lo2 <= 180) by (unfold Rmin; destruct (Rle_dec lo1 lo2); unfold Rabs in H3; destruct (Rcase_abs _); lra).
  destruct (@gps_real la1 lo1 (Rmin la1 la2) (Rmin lo1 lo2) M L1) as (k & m & Hk & Hm & E1).
  destruct (@gps_real la2 lo2 (Rmin la1 la2) (Rmin lo1 lo2) M L2) as (k' & m' & Hk' & Hm' & E2).
  assert (Q := @correct_real (mkBox (mkXY (Some ((lo1 - Rmin lo1 lo2) * k)) (Some ((la1 - Rmin la1 la2) * m)))
      (mkXY (Some ((lo2 - Rmin lo1 lo2) * k')) (Some ((la2 - Rmin la1 la2) * m'))))  _ _ _ _ (conj eq_refl (conj eq_refl (conj eq_refl eq_refl)))).
  rewrite <- E1, <- E2 in Q.
  assert (Z1 : Rmin ((lo1 - Rmin lo1 lo2) * k) ((lo2 - Rmin lo1 lo2) * k') = 0).
  { assert (P1 : 0 <= (lo1 - Rmin lo1 lo2) * k) by (apply Rmult_le_pos; lra).
    assert (P2 : 0 <= (lo2 - Rmin lo1 lo2) * k') by (apply Rmult_le_pos; lra).
    assert (P3 : (lo1 - Rmin lo1 lo2) * k = 0 \/ (lo2 - Rmin lo1 lo2) * k' = 0).
    { unfold Rmin. destruct (Rle_dec lo1 lo2); [left|right]; ring. }
    revert P1 P2 P3. generalize ((lo1 - Rmin lo1 lo2) * k), ((lo2 - Rmin lo1 lo2) * k'). intros u w ? ? ?.
    unfold Rmin; destruct (Rle_dec u w); lra. }
  assert (Z2 : Rmin ((la1 - Rmin la1 la2) * m) ((la2 - Rmin la1 la2) * m') = 0).
  { assert (G1 : Rmin la1 la2 <= la1) by apply Rmin_l. assert (G2 : Rmin la1 la2 <= la2) by apply Rmin_r.
    assert (P1 : 0 <= (la1 - Rmin la1 la2) * m) by (apply Rmult_le_pos; lra).
    assert (P2 : 0 <= (la2 - Rmin la1 la2) * m') by (apply Rmult_le_pos; lra).
    assert (P3 : (la1 - Rmin la1 la2) * m = 0 \/ (la2 - Rmin la1 la2) * m' = 0).
    { unfold Rmin. destruct (Rle_dec la1 la2); [left|right]; ring. }
    revert P1 P2 P3. generalize ((la1 - Rmin la1 la2) * m), ((la2 - Rmin la1 la2) * m'). intros u w ? ? ?.
    unfold Rmin; destruct (Rle_dec u w); lra. }
  rewrite Z1, Z2 in Q. do 2 eexists. split; [|split; [|exact Q]].
  - rewrite <- Z1. apply Rle_trans with (1 := Rmin_l _ _), Rmax_l.
  - rewrite <- Z2. apply Rle_trans with (1 := Rmin_l _ _), Rmax_l.
Qed.

(** ** C35 *)
Section Stand.
Context {F : Type} {NF : Num F}.
Theorem stand_rule s c o f ts lm (l : level F) o' p : ~ dropped s c l f ts -> standing s c (last_step o lm) ts ->
  processed s c o f ts lm l = Ok (o', p) ->
  exists sm tm r q, smoothing s o l f ts = Ok (sm, tm, r) /\ p = clamp_round (l_box l) q /\ po_last o' = p /\
    (adopted s c o r ts -> project s l (pos_set_ts r ts) = Ok q /\ po_extr o' = ts) /\
    (~ adopted s c o r ts -> project s l (pos_set_ts (po_last o) ts) = Ok q /\ po_extr o' = po_extr o).
Proof.
  intros D S H. apply processed_inv in H; [|exact D]. destruct H as (sm & tm & r & q & E1 & E2 & E3 & E4).
  exists sm, tm, r, q. split; [exact E1|]. split; [exact E3|]. subst o'. cbn [po_last po_extr]. split; [reflexivity|].
  destruct (hold_cases s c o (last_step o lm) ts r) as [(A & B & C)|[(A & B & C)|(A & C)]]; rewrite C in *; cbn [fst snd] in *; tauto.
Qed.
Theorem moving_rule s c o f ts lm (l : level F) o' p : ~ dropped s c l f ts -> ~ standing s c (last_step o lm) ts ->
  processed s c o f ts lm l = Ok (o', p) ->
  exists sm tm r q, smoothing s o l f ts = Ok (sm, tm, r) /\ p = clamp_round (l_box l) q /\ po_last o' = p /\
    project s l (pos_set_dev (pos_set_ts r ts) (p_dev (po_in o))) = Ok q /\ po_extr o' = po_extr o.
Proof.
  intros D S H. apply processed_inv in H; [|exact D]. destruct H as (sm & tm & r & q & E1 & E2 & E3 & E4).
  exists sm, tm, r, q. split; [exact E1|]. split; [exact E3|]. subst o'. cbn [po_last po_extr]. split; [reflexivity|].
  destruct (hold_cases s c o (last_step o lm) ts r) as [(A & B & C)|[(A & B & C)|(A & C)]]; rewrite C in *; cbn [fst snd] in *; tauto.
Qed.
End Stand.

Lemma frozen_run (s : settings RX) c (x y : R) cs : s_graphproj s = false -> centimetres x -> centimetres y ->
  forall (o : post RX) o' ps, p_x (po_last o) = Some x -> p_y (po_last o) = Some y ->
  Forall (fun k => still_call s c (po_step o) k /\ box_has (l_box (pl_level k)) x y /\
     forall (o1 : post RX) sm tm r, p_x (po_last o1) = Some x -> p_y (po_last o1) = Some y -> po_extr o1 = po_extr o ->
       ~ dropped s c (pl_level k) (pl_pos k) (pl_ts k) ->
       smoothing s o1 (pl_level k) (pl_pos k) (pl_ts k) = Ok (sm, tm, r) -> ~ adopted s c o1 r (pl_ts k)) cs ->
  post_run s c o cs = Ok (o', ps) ->
  Forall (fun p => p = pos0 \/ stays_at p (po_last o)) ps /\ stays_at (po_last o') (po_last o) /\ po_extr o' = po_extr o.
Proof.
  intros Hg Cx Cy. induction cs as [|k t IH]; intros o o' ps Lx Ly Hc H; cbn [post_run] in H.
  - injection H as <- <-. split; [constructor|]. unfold stays_at; auto.
  - inv_bind H. destruct a as [o1 p]. inv_bind Hb. destruct a as [o2 ps']. injection Hb0 as <- <-.
    assert (Ht := Forall_inv_tail Hc). apply Forall_inv in Hc. destruct Hc as ((Hm & Hs) & Hbox & Hn).
    assert (Es : last_step o (pl_motion k) = po_step o).
    { unfold last_step. destruct (Z.ltb_spec 0 (pl_motion k)); [|reflexivity]. destruct Hm; [lia|assumption]. }
    assert (A : stays_at (po_last o1) (po_last o) /\ po_extr o1 = po_extr o /\ po_step o1 = po_step o /\
                (p = pos0 \/ stays_at p (po_last o))).
    { destruct (dropped_dec s c (pl_level k) (pl_pos k) (pl_ts k)) as [D|D].
      - rewrite (processed_dropped _ _ D) in Ha. injection Ha as <- <-. cbn. unfold stays_at. auto 10.
      - assert (E1 : po_step o1 = po_step o).
        { apply processed_inv in Ha; [|exact D]. destruct Ha as (? & ? & ? & ? & _ & _ & _ & ->). exact Es. }
        apply stand_rule in Ha; [|exact D|rewrite Es; exact Hs].
        destruct Ha as (sm & tm & r & q & Q1 & Q2 & Q3 & _ & Q5).
        destruct Q5 as [Q5 Q6]; [eapply Hn; eauto|].
        unfold project in Q5. rewrite Hg in Q5. injection Q5 as <-.
        destruct Hbox as (x0 & y0 & x1 & y1 & Rb & Bx & By).
        destruct (@clamp_round_fix (l_box (pl_level k)) x0 y0 x1 y1 (pos_set_ts (po_last o) (pl_ts k)) x y) as [X1 X2]; auto.
        assert (stays_at p (po_last o)).
        { subst p. split; [congruence|]. split; [congruence|]. split; reflexivity. }
        rewrite Q3. auto. }
    destruct A as ((A1 & A2 & A3 & A4) & Ae & Ast & Ap).
    destruct (IH o1 o2 ps') as (B1 & B2 & B3); [congruence|congruence| |exact Ha0|].
    { rewrite Ast, Ae. exact Ht. }
    split; [constructor; [exact Ap|]|split; [|congruence]].
    + eapply Forall_impl; [|exact B1]. cbv beta. intros q [->|(Z1 & Z2 & Z3 & Z4)]; [auto|right]. unfold stays_at. rewrite Z1, Z2, Z3, Z4. auto.
    + destruct B2 as (Z1 & Z2 & Z3 & Z4). unfold stays_at. rewrite Z1, Z2, Z3, Z4. auto.
Qed.

Theorem far_ignored (s : settings RX) c (o : post RX) cs x y d o' ps : s_graphproj s = false -> s_usesmooth s = false -> s_timesmooth s = false ->
  s_stopsdist s = Some d -> p_x (po_last o) = Some x -> p_y (po_last o) = Some y -> centimetres x -> centimetres y ->
  Forall (fun k => still_call s c (po_step o) k /\ box_has (l_box (pl_level k)) x y /\ far_from (pl_pos k) x y d) cs ->
  post_run s c o cs = Ok (o', ps) ->
  Forall (fun p => p = pos0 \/ stays_at p (po_last o)) ps /\ stays_at (po_last o') (po_last o).
Proof.
  intros Hg Hu Ht Hd Lx Ly Cx Cy Hc H.
  assert (A : Forall (fun k => still_call s c (po_step o) k /\ box_has (l_box (pl_level k)) x y /\
     forall (o1 : post RX) sm tm r, p_x (po_last o1) = Some x -> p_y (po_last o1) = Some y -> po_extr o1 = po_extr o ->
       ~ dropped s c (pl_level k) (pl_pos k) (pl_ts k) ->
       smoothing s o1 (pl_level k) (pl_pos k) (pl_ts k) = Ok (sm, tm, r) -> ~ adopted s c o1 r (pl_ts k)) cs).
  { eapply Forall_impl; [|exact Hc]. cbv beta. intros k (K1 & K2 & (u & w & Eu & Ew & Hf)). split; [exact K1|]. split; [exact K2|].
    intros o1 sm tm r Rx Ry _ _ E Hn. unfold adopted in Hn. destruct Hn as [_ Hn]. unfold smoothing in E. rewrite Hu, Ht in E. cbn [bind] in E. injection E as <- <- <-.
    rewrite Rx, Ry, Eu, Ew, get_dist_real, Hd, rx_ltb in Hn. apply Rltb_true in Hn. lra. }
  destruct (frozen_run Hg Cx Cy o Lx Ly A H) as (B & C & _). auto.
Qed.
Theorem early_ignored (s : settings RX) c (o : post RX) cs x y o' ps : s_graphproj s = false ->
  p_x (po_last o) = Some x -> p_y (po_last o) = Some y -> centimetres x -> centimetres y ->
  Forall (fun k => still_call s c (po_step o) k /\ box_has (l_box (pl_level k)) x y /\ (pl_ts k - po_extr o <= pc_stopupd c)%Z) cs ->
  post_run s c o cs = Ok (o', ps) ->
  Forall (fun p => p = pos0 \/ stays_at p (po_last o)) ps /\ stays_at (po_last o') (po_last o).
Proof.
  intros Hg Lx Ly Cx Cy Hc H.
  assert (A : Forall (fun k => still_call s c (po_step o) k /\ box_has (l_box (pl_level k)) x y /\
     forall (o1 : post RX) sm tm r, p_x (po_last o1) = Some x -> p_y (po_last o1) = Some y -> po_extr o1 = po_extr o ->
       ~ dropped s c (pl_level k) (pl_pos k) (pl_ts k) ->
       smoothing s o1 (pl_level k) (pl_pos k) (pl_ts k) = Ok (sm, tm, r) -> ~ adopted s c o1 r (pl_ts k)) cs).
  { eapply Forall_impl; [|exact Hc]. cbv beta. intros k (K1 & K2 & K3). split; [exact K1|]. split; [exact K2|].
    intros o1 sm tm r _ _ Re _ _ (Hn & _). lia. }
  destruct (frozen_run Hg Cx Cy o Lx Ly A H) as (B & C & _). auto.
Qed.
(** without projection and smoothing every call returns *)
Lemma run_total s c (cs : list (pcall RX)) : s_graphproj s = false -> s_usesmooth s = false -> forall o, exists r, post_run s c o cs = Ok r.
Proof.
  intros Hg Hu. induction cs as [|k t IH]; intros o; cbn [post_run]; [eauto|].
  assert (A : exists r, processed s c o (pl_pos k) (pl_ts k) (pl_motion k) (pl_level k) = Ok r).
  { destruct (dropped_dec s c (pl_level k) (pl_pos k) (pl_ts k)) as [D|D].
    - rewrite (processed_dropped _ _ D). eauto.
    - rewrite (processed_kept _ _ D). unfold smoothing. rewrite Hu. cbn [bind].
      destruct (s_timesmooth s); destruct (hold_or_move _ _ _ _ _ _); unfold project; rewrite Hg; cbn [bind]; eauto. }
  destruct A as ((o1 & p) & ->). cbn [bind]. destruct (IH o1) as ((o2 & ps) & ->). cbn [bind]. eauto.
Qed.

(** ** Combined statements *)
Theorem fusion (s : settings RX) v pd old bor (o o' : post RX) ts pin pout st (f : position RX) :
  real_settings s v pd old bor -> good_post o -> good_pos pin -> good_pos pout ->
  (p_empty pin = true \/ p_empty (po_in o) = true \/ (p_ts (po_in o) <= p_ts pin)%Z) ->
  (p_empty pout = true \/ p_empty (po_out o) = true \/ (p_ts (po_out o) <= p_ts pout)%Z) ->
  fuse_positions s o ts pin pout st = (o', f) ->
  good_post o' /\
  exists i t, po_idev o' = Some i /\ po_odev o' = Some t /\
  let di := rdelay ts (p_ts (po_in o')) in let dt := rdelay ts (p_ts (po_out o')) in
  let a := (v * di + i)%R in let b := (v * dt + t)%R in
  (s_instgps s = true /\ p_empty pout = false /\ f = pout) \/
  (s_prefindoor s = true /\ p_empty pin = false /\ st = OK /\ f = pin) \/
  ((s_gps s = false \/ p_empty (po_out o') = true) /\ f = po_in o') \/
  (p_empty (po_in o') = true /\ f = po_out o') \/
  ((old < di)%R /\ f = po_out o') \/
  ((old < dt)%R /\ f = po_in o') \/
  ((di <= old)%R /\ (dt <= old)%R /\ s_gps s = true /\ p_empty (po_in o') = false /\ p_empty (po_out o') = false /\
   exists xi yi ei xt yt et, at_xy (po_in o') xi yi ei /\ at_xy (po_out o') xt yt et /\
   if s_fusegps s && Rltb (rdist xi yi xt yt) (ei + et + bor) then fuses (po_in o') (po_out o') a b f /\ p_empty f = false
   else f = if Rltb a b then po_in o' else po_out o').
Proof.
  intros S G Gi Gt Ti Tt H. unfold fuse_positions in H. injection H as <- <-.
  assert (G' := @fill_good s v pd old bor o pin pout S G Gi Gt Ti Tt). split; [exact G'|].
  destruct G' as ((i & Ei & Hi) & (t & Et & Ht) & G1 & G2). exists i, t. split; [exact Ei|]. split; [exact Et|].
  apply (@fused_real s v pd old bor (fill_states s o pin pout) ts pin pout st i t S); auto.
  repeat split; eauto.
Qed.
Lemma round2_idem x : round2 (round2 (Some x : RX)) = round2 (Some x : RX).
Proof. destruct (round2_spec x) as (y & E & Cy & _). rewrite !E. apply round2_cm, Cy. Qed.
Theorem never_reported (s : settings RX) c (o : post RX) cs d :
  s_graphproj s = false -> s_usesmooth s = false -> s_timesmooth s = false ->
  s_stopsdist s = Some d -> po_last o = pos0 ->
  Forall (fun k => still_call s c (po_step o) k /\ box_has (l_box (pl_level k)) 0 0 /\ far_from (pl_pos k) 0 0 d) cs ->
  exists o' ps, post_run s c o cs = Ok (o', ps) /\ Forall (fun p => p_empty p = true) ps.
Proof.
  intros Hg Hu Ht Hd H0 Hc. destruct (@run_total s c cs Hg Hu o) as ((o' & ps) & E). exists o', ps. split; [exact E|].
  assert (C0 : centimetres 0) by (exists 0%Z; lra).
  destruct (@far_ignored s c o cs 0 0 d o' ps) as [A _]; auto; try (rewrite H0; reflexivity).
  eapply Forall_impl; [|exact A]. cbv beta. intros p [->|(_ & _ & _ & ->)]; [reflexivity|rewrite H0; reflexivity].
Qed.

Lemma off_grid x z : (IZR z / 100 < x)%R -> (x < IZR z / 100 + 1 / 100)%R ->
  exists y, round2 (Some x : RX) = Some y /\ (y < x)%R.
Proof.
  intros H1 H2. destruct (round2_spec x) as (y & E & [w Hw] & H & _). exists y. split; [exact E|].
  destruct (Rle_lt_or_eq_dec y x) as [L|L]; [lra|exact L|]. subst y. exfalso. subst x.
  assert (A : (z < w)%Z) by (apply lt_IZR; lra). assert (B : IZR (z + 1) <= IZR w) by (apply IZR_le; lia). rewrite plus_IZR in B. lra.
Qed.
