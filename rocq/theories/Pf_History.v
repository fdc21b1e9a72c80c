(** C22: hysteresis of the level history. *)
From Verif Require Import Lib LevelEst Spec_Level.
Set Implicit Arguments.
Local Open Scope string_scope.
Local Open Scope list_scope.

Definition hist_run (h : lhist) (ds : list string) : lhist := fold_left (fun s d => fst (hist_step s d)) ds h.

Lemma hist_step_out h d : snd (hist_step h d) = lh_cur (fst (hist_step h d)).
Proof.
  unfold hist_step. destruct (String.eqb d ""); [reflexivity|].
  destruct (max_occur <? mget 0 d (lh_cnt h) + 1)%Z; reflexivity.
Qed.
Lemma hist_outputs_last h ds : last (hist_outputs h ds) (lh_cur h) = lh_cur (hist_run h ds).
Proof.
  revert h; induction ds as [|d t IH]; intros h; [reflexivity|].
  change (hist_run h (d :: t)) with (hist_run (fst (hist_step h d)) t).
  rewrite <- IH. cbn [hist_outputs]. rewrite hist_step_out.
  destruct (hist_outputs (fst (hist_step h d)) t) as [|y l] eqn:E; [reflexivity|].
  change (last (y :: l) (lh_cur h) = last (y :: l) (lh_cur (fst (hist_step h d)))).
  generalize (lh_cur (fst (hist_step h d))) (lh_cur h). clear.
  revert y; induction l as [|z l IH]; intros y a b; [reflexivity|].
  exact (IH z a b).
Qed.
Lemma level_after_run ds : level_after ds = lh_cur (hist_run lhist0 ds).
Proof. unfold level_after. rewrite <- hist_outputs_last. reflexivity. Qed.
Lemma hist_run_app h a b : hist_run h (a ++ b) = hist_run (hist_run h a) b.
Proof. unfold hist_run. apply fold_left_app. Qed.

Lemma occ_app x a b : occ x (a ++ b) = (occ x a + occ x b)%nat.
Proof. apply count_occ_app. Qed.
Lemma occ_cons x y l : occ x (y :: l) = ((if string_dec y x then 1 else 0) + occ x l)%nat.
Proof. unfold occ. cbn [count_occ]. destruct (string_dec y x); reflexivity. Qed.
Lemma occ_one x y : occ x [y] = if string_dec y x then 1%nat else 0%nat.
Proof. unfold occ; cbn. destruct (string_dec y x); reflexivity. Qed.

(** warm-up invariant *)
Definition warm (ds : list string) (h : lhist) : Prop :=
  below5 ds /\ lh_cur h = first_det ds /\
  lh_init h = negb (String.eqb (first_det ds) "") /\
  forall x, x <> ""%string -> mget 0%Z x (lh_cnt h) = Z.of_nat (occ x ds).
(** steady-state invariant: [ds] are the detections since the current level *)
Definition steady (c : string) (ds : list string) (h : lhist) : Prop :=
  c <> ""%string /\ ~ In c ds /\ below5 ds /\ lh_cur h = c /\ lh_init h = true /\
  forall x, x <> ""%string -> mget 0%Z x (lh_cnt h) = if string_dec x c then 4%Z else Z.of_nat (occ x ds).

Lemma first_det_app a b : first_det (a ++ b) = if String.eqb (first_det a) "" then first_det b else first_det a.
Proof.
  unfold first_det. induction a as [|x t IH]; [reflexivity|].
  cbn. destruct (String.eqb_spec x ""); cbn; [exact IH|].
  apply String.eqb_neq in n. rewrite n. reflexivity.
Qed.
Lemma first_det_one d : first_det [d] = d.
Proof. unfold first_det; cbn. destruct (String.eqb_spec d ""); subst; reflexivity. Qed.
Lemma last_det_snoc ds d : d <> ""%string -> last_det (ds ++ [d]) = d.
Proof.
  intros H. unfold last_det. rewrite rev_app_distr. cbn.
  change (d :: rev ds) with ([d] ++ rev ds). rewrite first_det_app, first_det_one.
  apply String.eqb_neq in H; rewrite H; reflexivity.
Qed.
Lemma last_det_snoc_empty ds : last_det (ds ++ [""%string]) = last_det ds.
Proof. unfold last_det. rewrite rev_app_distr. reflexivity. Qed.

Lemma mget_single (c x : string) : mget 0%Z x [(c, max_occur)] = if string_dec x c then 4%Z else 0%Z.
Proof.
  unfold mget; cbn. destruct (string_dec x c) as [->|N].
  - rewrite String.eqb_refl; reflexivity.
  - apply String.eqb_neq in N; rewrite N; reflexivity.
Qed.
Lemma steady_init c : c <> ""%string -> steady c [] (mkHist c true [(c, max_occur)]).
Proof.
  intros H. unfold steady. repeat split; auto.
  - intros x _; cbn; lia.
  - intros x _. cbn [lh_cnt]. rewrite mget_single. destruct (string_dec x c); reflexivity.
Qed.

Lemma warm_step ds h d : warm ds h ->
  (warm (ds ++ [d]) (fst (hist_step h d))) \/
  (d <> ""%string /\ occ d ds = 4%nat /\ fst (hist_step h d) = mkHist d true [(d, max_occur)]).
Proof.
  intros (Hb & Hc & Hi & Hm). unfold hist_step.
  destruct (String.eqb_spec d "") as [->|Nd].
  - left. cbn [fst]. unfold warm. rewrite first_det_app, first_det_one.
    assert (E : (if String.eqb (first_det ds) "" then ""%string else first_det ds) = first_det ds)
      by (destruct (String.eqb_spec (first_det ds) ""); congruence).
    rewrite E. split; [|split; [|split]]; auto.
    + intros x Hx. rewrite occ_app, occ_one. destruct (string_dec "" x); [congruence|].
      specialize (Hb x Hx). lia.
    + intros x Hx. rewrite occ_app, occ_one, Hm by exact Hx.
      destruct (string_dec "" x); [congruence|]. lia.
  - rewrite (Hm d Nd). specialize (Hb d Nd) as Hbd.
    destruct (Z.ltb_spec max_occur (Z.of_nat (occ d ds) + 1)) as [L|L]; unfold max_occur in L.
    + right. cbn [fst]. repeat split; auto. lia.
    + left. cbn [fst]. unfold warm. cbn [lh_cur lh_init lh_cnt].
      rewrite first_det_app, first_det_one.
      split; [|split; [|split]].
      * intros x Hx. rewrite occ_app, occ_one. specialize (Hb x Hx).
        destruct (string_dec d x) as [<-|]; lia.
      * rewrite Hi. destruct (String.eqb (first_det ds) ""); cbn; auto.
      * destruct (String.eqb (first_det ds) "") eqn:E; [|rewrite E; reflexivity].
        apply String.eqb_neq in Nd; rewrite Nd; reflexivity.
      * intros x Hx. rewrite occ_app, occ_one. destruct (string_dec d x) as [<-|N].
        -- rewrite mget_mset_same. lia.
        -- rewrite mget_mset_other by congruence. rewrite Hm by exact Hx. lia.
Qed.

Lemma steady_step c ds h d : steady c ds h ->
  (d = ""%string /\ fst (hist_step h d) = h) \/
  (d = c /\ fst (hist_step h d) = mkHist c true [(c, max_occur)]) \/
  (d <> ""%string /\ d <> c /\ occ d ds = 4%nat /\ fst (hist_step h d) = mkHist d true [(d, max_occur)]) \/
  (d <> ""%string /\ d <> c /\ (occ d ds < 4)%nat /\ steady c (ds ++ [d]) (fst (hist_step h d))).
Proof.
  intros (Nc & Hn & Hb & Hc & Hi & Hm). unfold hist_step.
  destruct (String.eqb_spec d "") as [->|Nd]; [left; split; reflexivity|right].
  rewrite (Hm d Nd). destruct (string_dec d c) as [->|Ndc].
  - left. split; [reflexivity|]. reflexivity.
  - right. specialize (Hb d Nd) as Hbd.
    destruct (Z.ltb_spec max_occur (Z.of_nat (occ d ds) + 1)) as [L|L]; unfold max_occur in L.
    + left. cbn [fst]. repeat split; auto. lia.
    + right. cbn [fst]. repeat split; auto; [lia| | | |].
      * rewrite in_app_iff. cbn. intuition congruence.
      * intros x Hx. rewrite occ_app, occ_one. specialize (Hb x Hx).
        destruct (string_dec d x) as [<-|]; lia.
      * cbn. rewrite Hi. exact Hc.
      * cbn [lh_cnt]. intros x Hx. rewrite occ_app, occ_one. destruct (string_dec d x) as [<-|N].
        -- rewrite mget_mset_same. destruct (string_dec d c); [congruence|]. lia.
        -- rewrite mget_mset_other by congruence. rewrite Hm by exact Hx.
           destruct (string_dec x c); lia.
Qed.

(** every reachable history is in one of the two phases *)
Lemma reach ds :
  warm ds (hist_run lhist0 ds) \/
  (settled ds /\ exists c pre seg, steady c (filter (fun d => negb (String.eqb d "")) seg) (hist_run lhist0 ds) /\
     ds = pre ++ c :: seg).
Proof.
  induction ds as [|d ds IH] using rev_ind.
  - left. unfold warm. repeat split; cbn; auto. intros x _; cbn; lia.
  - rewrite hist_run_app. cbn [hist_run fold_left].
    set (h := hist_run lhist0 ds) in *.
    destruct IH as [Hw|[Hs (c & pre & seg & Hst & Hds)]].
    + destruct (warm_step d Hw) as [Hw'|(Nd & Ho & E)]; [left; exact Hw'|right].
      split.
      * exists d. split; [exact Nd|]. rewrite occ_app, occ_one. destruct (string_dec d d); [lia|congruence].
      * exists d, ds, []. split; [|reflexivity]. cbn [filter]. rewrite E. apply steady_init; exact Nd.
    + right. split.
      { destruct Hs as (x & Nx & Hx). exists x. split; [exact Nx|]. rewrite occ_app. lia. }
      destruct (steady_step d Hst) as [(-> & E)|[(-> & E)|[(Nd & Ndc & Ho & E)|(Nd & Ndc & Ho & Hst')]]].
      * exists c, pre, (seg ++ [""%string]). rewrite E, filter_app. cbn [filter String.eqb negb].
        rewrite app_nil_r. split; [exact Hst|]. rewrite Hds, <- app_assoc. reflexivity.
      * exists c, ds, []. rewrite E. split; [|reflexivity]. apply steady_init. apply Hst.
      * exists d, ds, []. rewrite E. split; [|reflexivity]. apply steady_init; exact Nd.
      * exists c, pre, (seg ++ [d]). rewrite filter_app. cbn [filter].
        assert (Eb : negb (String.eqb d "") = true) by (apply String.eqb_neq in Nd; rewrite Nd; reflexivity).
        rewrite Eb. split; [exact Hst'|]. rewrite Hds, <- app_assoc. reflexivity.
Qed.

(** ** The property *)
Lemma history_empty ds : level_after ds = ""%string <-> Forall (fun d => d = ""%string) ds.
Proof.
  rewrite level_after_run. destruct (reach ds) as [(Hb & Hc & _)|[(x & Nx & Hx) (c & pre & seg & Hst & Hds)]].
  - rewrite Hc. clear. split.
    + unfold first_det. intros H. apply Forall_forall. intros x Hx.
      destruct (find (fun d => negb (String.eqb d "")) ds) eqn:E.
      * apply find_some in E. destruct E as [_ E]. subst s. discriminate.
      * apply find_none with (x := x) in E; [|exact Hx].
        destruct (String.eqb_spec x ""); [assumption|discriminate].
    + intros H. unfold first_det. destruct (find _ ds) eqn:E; [|reflexivity].
      apply find_some in E. rewrite Forall_forall in H. apply H, E.
  - destruct Hst as (Nc & _ & _ & Hcur & _). rewrite Hcur. split; [congruence|].
    intros H. rewrite Forall_forall in H. exfalso; apply Nc, H. rewrite Hds. apply in_elt.
Qed.

Lemma first_det_in ds : first_det ds <> ""%string -> In (first_det ds) ds.
Proof.
  unfold first_det. destruct (find _ ds) eqn:E; [|congruence].
  intros _. apply find_some in E. apply E.
Qed.

Lemma history_member ds : level_after ds = ""%string \/ In (level_after ds) ds.
Proof.
  rewrite level_after_run. destruct (reach ds) as [(Hb & Hc & _)|[_ (c & pre & seg & Hst & Hds)]].
  - rewrite Hc. destruct (string_dec (first_det ds) "") as [E|N]; [left; exact E|right; apply first_det_in; exact N].
  - right. destruct Hst as (_ & _ & _ & Hcur & _). rewrite Hcur, Hds. apply in_elt.
Qed.

Lemma history_skip a b : level_after (a ++ ""%string :: b) = level_after (a ++ b).
Proof.
  rewrite !level_after_run. rewrite !hist_run_app. reflexivity.
Qed.
Lemma history_empty_call ds : level_after (ds ++ [""%string]) = level_after ds.
Proof. rewrite history_skip, app_nil_r; reflexivity. Qed.

Lemma history_warm ds : below5 ds -> level_after ds = first_det ds.
Proof.
  intros Hb. rewrite level_after_run.
  destruct (reach ds) as [(_ & Hc & _)|[(x & Nx & Hx) _]]; [exact Hc|].
  specialize (Hb x Nx). lia.
Qed.

Lemma history_first5 ds e : e <> ""%string -> below5 ds -> occ e ds = 4%nat -> level_after (ds ++ [e]) = e.
Proof.
  intros Ne Hb Ho. rewrite level_after_run, hist_run_app.
  destruct (reach ds) as [Hw|[(x & Nx & Hx) _]].
  - destruct (warm_step e Hw) as [(Hb' & _)|(_ & _ & E)].
    + specialize (Hb' e Ne). rewrite occ_app, occ_one in Hb'. destruct (string_dec e e); [lia|congruence].
    + cbn [hist_run fold_left]. rewrite E. reflexivity.
  - specialize (Hb x Nx). lia.
Qed.

Lemma steady_run c seg h ds : steady c seg h -> ~ In c ds -> below5 (seg ++ ds) ->
  steady c (seg ++ filter (fun d => negb (String.eqb d "")) ds) (hist_run h ds).
Proof.
  revert seg h; induction ds as [|d t IH]; intros seg h Hs Hn Hb.
  - cbn. rewrite app_nil_r. exact Hs.
  - cbn [hist_run fold_left]. cbn [In] in Hn.
    destruct (steady_step d Hs) as [(-> & E)|[(-> & E)|[(Nd & Ndc & Ho & E)|(Nd & Ndc & Ho & Hst')]]].
    + rewrite E. cbn [filter String.eqb negb]. apply IH; auto.
      intros x Hx. specialize (Hb x Hx). rewrite occ_app, ?occ_cons in *.
      destruct (string_dec "" x); [congruence|]. lia.
    + exfalso; apply Hn; left; reflexivity.
    + specialize (Hb d Nd). rewrite occ_app, occ_cons in Hb.
      destruct (string_dec d d); [lia|congruence].
    + cbn [filter]. assert (Eb : negb (String.eqb d "") = true) by (apply String.eqb_neq in Nd; rewrite Nd; reflexivity).
      rewrite Eb. change (d :: filter (fun d => negb (String.eqb d "")) t)
        with ([d] ++ filter (fun d => negb (String.eqb d "")) t).
      rewrite app_assoc. apply IH; auto. rewrite <- app_assoc. exact Hb.
Qed.

Lemma occ_filter x ds : x <> ""%string ->
  occ x (filter (fun d => negb (String.eqb d "")) ds) = occ x ds.
Proof.
  intros Hx. induction ds as [|d t IH]; [reflexivity|].
  cbn [filter]. rewrite occ_cons. destruct (String.eqb_spec d "") as [->|N]; cbn [negb].
  - destruct (string_dec "" x); [congruence|]. exact IH.
  - rewrite occ_cons, IH. reflexivity.
Qed.

(** state just after the current level was detected *)
Lemma at_current ds c : settled ds -> level_after ds = c -> last_det ds = c ->
  steady c [] (hist_run lhist0 ds).
Proof.
  intros (x & Nx & Hx) Hl Hd. rewrite level_after_run in Hl.
  destruct (reach ds) as [(Hb & _)|[_ (c' & pre & seg & Hst & Hds)]].
  - specialize (Hb x Nx). lia.
  - assert (c' = c) by (destruct Hst as (_ & _ & _ & Hcur & _); congruence). subst c'.
    assert (E : filter (fun d => negb (String.eqb d "")) seg = []).
    { destruct Hst as (Nc & Hn & _). subst ds. clear -Hd Nc Hn.
      unfold last_det in Hd. rewrite rev_app_distr in Hd. cbn [rev] in Hd.
      rewrite <- app_assoc, first_det_app in Hd.
      destruct (filter (fun d => negb (String.eqb d "")) seg) as [|y t] eqn:Ef; [reflexivity|].
      exfalso.
      assert (Hy : In y (rev seg) /\ y <> ""%string).
      { assert (In y (filter (fun d => negb (String.eqb d "")) seg)) by (rewrite Ef; left; reflexivity).
        apply filter_In in H. rewrite <- in_rev. split; [apply H|].
        destruct H as [_ H]. intros ->; discriminate. }
      destruct (String.eqb_spec (first_det (rev seg)) "") as [E|N].
      - assert (Hall : forall z, In z (rev seg) -> z = ""%string).
        { intros z Hz. unfold first_det in E.
          destruct (find (fun d => negb (String.eqb d "")) (rev seg)) eqn:Fi.
          - apply find_some in Fi. destruct Fi as [_ Fi]. subst s; discriminate.
          - apply find_none with (x := z) in Fi; [|exact Hz].
            destruct (String.eqb_spec z ""); [assumption|discriminate]. }
        apply (proj2 Hy), Hall, Hy.
      - apply Hn. rewrite <- Ef. apply filter_In. rewrite <- Hd.
        split; [apply in_rev, first_det_in; exact N|].
        apply String.eqb_neq in N; rewrite N; reflexivity. }
    rewrite E in Hst. exact Hst.
Qed.

Lemma history_keep ds c seg : settled ds -> level_after ds = c -> last_det ds = c ->
  ~ In c seg -> below5 seg -> level_after (ds ++ seg) = c.
Proof.
  intros Hs Hl Hd Hn Hb. rewrite level_after_run, hist_run_app.
  assert (Hst := steady_run seg (at_current Hs Hl Hd) Hn Hb).
  apply Hst.
Qed.
Lemma history_switch ds c seg e : settled ds -> level_after ds = c -> last_det ds = c ->
  ~ In c seg -> below5 seg -> e <> ""%string -> e <> c -> occ e seg = 4%nat ->
  level_after (ds ++ seg ++ [e]) = e.
Proof.
  intros Hs Hl Hd Hn Hb Ne Nec Ho. rewrite level_after_run, app_assoc, hist_run_app, hist_run_app.
  assert (Hst := steady_run seg (at_current Hs Hl Hd) Hn Hb).
  cbn [hist_run fold_left]. cbn [app] in Hst.
  destruct (steady_step e Hst) as [(-> & E)|[(-> & E)|[(Nd & Ndc & Ho' & E)|(Nd & Ndc & Ho' & Hst')]]];
    try congruence.
  - rewrite E; reflexivity.
  - rewrite occ_filter in Ho' by exact Ne. lia.
Qed.
Lemma history_confirm ds c seg : settled ds -> level_after ds = c -> last_det ds = c ->
  ~ In c seg -> below5 seg -> level_after (ds ++ seg ++ [c]) = c.
Proof.
  intros Hs Hl Hd Hn Hb. rewrite level_after_run, app_assoc, hist_run_app, hist_run_app.
  assert (Hst := steady_run seg (at_current Hs Hl Hd) Hn Hb).
  cbn [hist_run fold_left]. cbn [app] in Hst. 
  assert (Nc : c <> ""%string) by apply Hst.
  destruct (steady_step c Hst) as [(-> & E)|[(_ & E)|[(Nd & Ndc & Ho' & E)|(Nd & Ndc & Ho' & Hst')]]];
    try congruence.
  rewrite E; reflexivity.
Qed.

(** The whole rule: [ds] ends with a detection of the settled level [c]; [seg]
    is any continuation without [c]. *)
Definition hysteresis_rule : Prop :=
  (forall ds, level_after ds = ""%string <-> Forall (fun d => d = ""%string) ds) /\
  (forall ds, level_after ds = ""%string \/ In (level_after ds) ds) /\
  (forall a b, level_after (a ++ ""%string :: b) = level_after (a ++ b)) /\
  (forall ds, below5 ds -> level_after ds = first_det ds) /\
  (forall ds e, e <> ""%string -> below5 ds -> occ e ds = 4%nat -> level_after (ds ++ [e]) = e) /\
  (forall ds c seg, settled ds -> level_after ds = c -> last_det ds = c -> ~ In c seg -> below5 seg ->
     level_after (ds ++ seg) = c /\ level_after (ds ++ seg ++ [c]) = c /\
     forall e, e <> ""%string -> e <> c -> occ e seg = 4%nat -> level_after (ds ++ seg ++ [e]) = e).
Lemma hysteresis : hysteresis_rule.
Proof.
  split; [exact history_empty|]. split; [exact history_member|]. split; [exact history_skip|].
  split; [exact history_warm|]. split; [exact history_first5|].
  intros ds c seg Hs Hl Hd Hn Hb. split; [apply history_keep with (c := c); auto|].
  split; [apply history_confirm; auto|].
  intros e Ne Nec Ho. apply history_switch with (c := c); auto.
Qed.

(** Concrete histories *)
Example hyst_example :
  let a := "A"%string in let b := "B"%string in
  settled [a; a; a; a; a] /\ level_after [a; a; a; a; a] = a /\ last_det [a; a; a; a; a] = a /\
  below5 [b; b; ""; b; b]%string /\
  hist_outputs lhist0 [""; b; a; a; a; a; a; b; b; b; b; b]%string =
    [""; b; b; b; b; b; a; a; a; a; a; b]%string.
Proof.
  cbv zeta. split.
  - exists "A"%string. split; [discriminate|]. unfold occ; cbn; lia.
  - split; [reflexivity|]. split; [reflexivity|]. split; [|reflexivity].
    intros x Hx. rewrite !occ_cons. change (occ x []) with 0%nat. destruct (string_dec "B" x), (string_dec "" x); subst; try congruence; lia.
Qed.
