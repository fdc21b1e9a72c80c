(** Proofs of C16-C21. *)
From Coq Require Import Reals Lra.
From Verif Require Import Lib LibR NumOrd Preproc Spec_Preproc.
Set Implicit Arguments.
Local Open Scope list_scope.

Section Runs.
Context {F : Type} {NF : Num F}.
Notation srad := (stamped (radio F)).
Notation sid m := (r_id (st_data m)).

Lemma id_lt_swo (l : list srad) : strict_weak_on id_lt l.
Proof.
  unfold strict_weak_on, id_lt. split; [|split].
  - intros a _. apply str_ltb_irrefl.
  - intros a b c _ _ _. apply str_ltb_trans.
  - intros a b c _ _ _. apply str_ltb_neg_trans.
Qed.
Lemma ts_lt_swo (l : list srad) : strict_weak_on ts_lt l.
Proof. unfold strict_weak_on, ts_lt. split; [|split]; intros; lia. Qed.

Notation sorted := (StronglySorted (fun a b : srad => id_lt b a = false)).

(** The runs of a sorted list *)
Definition run_ok (g : srad * list srad) : Prop :=
  (exists t, snd g = fst g :: t) /\ Forall (fun m => sid m = sid (fst g)) (snd g).

Lemma runs_from_spec l : forall x acc, sorted (x :: l) ->
  (exists t, rev acc = x :: t) -> Forall (fun m => sid m = sid x) acc ->
  let rs := runs_from x acc l in
  List.concat (map snd rs) = rev acc ++ l /\ Forall run_ok rs /\
  StronglySorted (fun a b => String.ltb a b = true) (map (fun g => sid (fst g)) rs) /\
  (exists gs, map (fun g => sid (fst g)) rs = sid x :: gs).
Proof.
  induction l as [|e l IH]; intros x acc Hs Ha Hf; cbv zeta; cbn [runs_from].
  - cbn. rewrite !app_nil_r. repeat split; auto.
    + constructor; [|constructor]. split; [exact Ha|]. cbn. apply Forall_rev; exact Hf.
    + repeat constructor.
    + exists []; reflexivity.
  - inversion Hs as [|? ? Hsl Hfx]; subst. inversion Hfx as [|? ? Hex Hfx']; subst.
    destruct (id_lt x e) eqn:E.
    + destruct (IH e [e] Hsl) as (Hc & Hr & Hss & gs & Hg); [exists []; reflexivity|repeat constructor|].
      cbn [map List.concat snd fst]. rewrite Hc. cbn [rev app].
      split; [reflexivity|]. split; [|split].
      * constructor; [|exact Hr]. split; [exact Ha|]. apply Forall_rev; exact Hf.
      * constructor; [exact Hss|]. rewrite Hg in *. inversion Hss as [|? ? _ Hf1]; subst.
        constructor; [exact E|]. eapply Forall_impl; [|exact Hf1].
        intros z Hz. cbn in Hz. eapply str_ltb_trans; [exact E|exact Hz].
      * eexists; reflexivity.
    + assert (Ee : sid e = sid x) by (apply str_ltb_total; assumption).
      destruct (IH x (e :: acc)) as (Hc & Hr & Hss & gs & Hg).
      * constructor; [inversion Hsl; assumption|exact Hfx'].
      * destruct Ha as (t & Et). exists (t ++ [e]). cbn. rewrite Et. reflexivity.
      * constructor; assumption.
      * cbv zeta in *. split; [|split; [exact Hr|split; [exact Hss|exists gs; exact Hg]]].
        rewrite Hc. cbn [rev]. rewrite <- app_assoc. reflexivity.
Qed.

Lemma runs_spec l : sorted l ->
  List.concat (map snd (runs l)) = l /\ Forall run_ok (runs l) /\
  StronglySorted (fun a b => String.ltb a b = true) (map (fun g => sid (fst g)) (runs l)).
Proof.
  destruct l as [|x l]; intros Hs; [repeat split; constructor|].
  destruct (runs_from_spec Hs (acc := [x])) as (Hc & Hr & Hss & _); [exists []; reflexivity|repeat constructor|].
  cbn [runs]. auto.
Qed.

Lemma run_is_filter (rs : list (srad * list srad)) :
  Forall run_ok rs ->
  StronglySorted (fun a b => String.ltb a b = true) (map (fun g => sid (fst g)) rs) ->
  forall g, In g rs -> of_tx (sid (fst g)) (List.concat (map snd rs)) = snd g.
Proof.
  induction rs as [|g0 rs IH]; intros Hr Hs g Hg; [destruct Hg|].
  inversion Hr as [|? ? H0 Hr']; subst. cbn [map List.concat] in *.
  inversion Hs as [|? ? Hs' Hf]; subst.
  unfold of_tx in *. rewrite filter_app.
  assert (Hall : forall (p : string) (ms : list srad), Forall (fun m => sid m = p) ms ->
     forall q, filter (fun m => String.eqb (sid m) q) ms = if String.eqb p q then ms else []).
  { intros p ms. induction 1 as [|m ms Hm _ IHm]; intros q; cbn; [destruct (String.eqb p q); reflexivity|].
    rewrite Hm, IHm. destruct (String.eqb p q); reflexivity. }
  destruct Hg as [<-|Hg].
  - rewrite (Hall _ _ (proj2 H0)), String.eqb_refl.
    enough (E : filter (fun m => String.eqb (sid m) (sid (fst g0))) (List.concat (map snd rs)) = []) by (rewrite E, app_nil_r; reflexivity).
    clear IH Hs Hs' Hr. induction rs as [|g1 rs IH]; [reflexivity|].
    cbn [map List.concat] in *. inversion Hr' as [|? ? H1 Hr1]; subst. inversion Hf as [|? ? L1 Hf1]; subst.
    rewrite filter_app, (Hall _ _ (proj2 H1)), IH by assumption.
    destruct (String.eqb_spec (sid (fst g1)) (sid (fst g0))) as [E|E]; [|reflexivity].
    rewrite E, str_ltb_irrefl in L1; discriminate.
  - rewrite (IH Hr' Hs' g Hg), (Hall _ _ (proj2 H0)).
    destruct (String.eqb_spec (sid (fst g0)) (sid (fst g))) as [E|E]; [|reflexivity].
    rewrite Forall_forall in Hf. specialize (Hf (sid (fst g)) (in_map _ _ _ Hg)).
    rewrite E, str_ltb_irrefl in Hf; discriminate.
Qed.

Lemma filter_perm A (p : A -> bool) l l' : Permutation l l' -> Permutation (filter p l) (filter p l').
Proof.
  induction 1 as [|x l l' H IH|x y l|l l1 l2 H1 IH1 H2 IH2]; cbn; auto.
  - destruct (p x); auto.
  - destruct (p x), (p y); auto. apply perm_swap.
  - etransitivity; eassumption.
Qed.

Lemma averages_perm (out : list (radio F)) w w' : Permutation w w' -> averages_of out w -> averages_of out w'.
Proof.
  intros Hp (Hs & Hi & Ha). split; [exact Hs|]. split.
  - intros tx. rewrite Hi. split; intros (m & Hm & E); exists m; split; auto;
      [apply (Permutation_in _ Hp Hm)|apply (Permutation_in _ (Permutation_sym Hp) Hm)].
  - intros o Ho. destruct (Ha o Ho) as ((g1 & P1 & E1) & (g2 & P2 & E2) & m & Hm & Eo).
    assert (Hpo : Permutation (of_tx (r_id o) w') (of_tx (r_id o) w)) by (apply filter_perm, Permutation_sym, Hp).
    split; [exists g1; split; [etransitivity; eassumption|exact E1]|].
    split; [exists g2; split; [etransitivity; eassumption|exact E2]|].
    exists m. split; [apply (Permutation_in _ (Permutation_sym Hpo)); exact Hm|exact Eo].
Qed.

Lemma averages_sorted l : sorted l -> averages_of (map average_run (runs l)) l.
Proof.
  intros Hs. destruct (runs_spec Hs) as (Hc & Hr & Hss).
  assert (Hid : map (@r_id F) (map average_run (runs l)) = map (fun g => sid (fst g)) (runs l)).
  { rewrite map_map. apply map_ext. intros g. reflexivity. }
  split; [rewrite Hid; exact Hss|]. split.
  - intros tx. rewrite Hid. split.
    + intros Hi. apply in_map_iff in Hi. destruct Hi as (g & <- & Hg).
      exists (fst g). split; [|reflexivity]. rewrite <- Hc. apply in_concat. exists (snd g).
      split; [apply in_map; exact Hg|]. rewrite Forall_forall in Hr. destruct (Hr g Hg) as ((t & Et) & _).
      rewrite Et. left; reflexivity.
    + intros (m & Hm & <-). rewrite <- Hc in Hm. apply in_concat in Hm. destruct Hm as (ms & Hms & Hm).
      apply in_map_iff in Hms. destruct Hms as (g & <- & Hg). apply in_map_iff. exists g. split; [|exact Hg].
      rewrite Forall_forall in Hr. destruct (Hr g Hg) as (_ & Hf). rewrite Forall_forall in Hf.
      symmetry; apply Hf; exact Hm.
  - intros o Ho. apply in_map_iff in Ho. destruct Ho as (g & <- & Hg).
    change (r_id (average_run g)) with (sid (fst g)).
    assert (Ef := run_is_filter Hr Hss g Hg). rewrite Hc in Ef. rewrite Ef.
    split; [exists (snd g); split; reflexivity|]. split; [exists (snd g); split; reflexivity|].
    exists (fst g). split; [|reflexivity].
    rewrite Forall_forall in Hr. destruct (Hr g Hg) as ((t & Et) & _). rewrite Et. left; reflexivity.
Qed.
End Runs.

Section Buffer.
Context {F : Type} {NF : Num F} {SO : Sorter}.
Notation srad := (stamped (radio F)).

Lemma sort_id_perm (l : list srad) : Permutation l (ssort id_lt l).
Proof. apply ssort_perm, id_lt_swo. Qed.
Lemma sort_ts_perm (l : list srad) : Permutation l (ssort ts_lt l).
Proof. apply ssort_perm, ts_lt_swo. Qed.

(** C16 *)
Lemma extract_averages (c : bufcfg) (b : buffer F) s :
  (bc_shift c <= b_cur b - b_last b)%Z ->
  averages_of (snd (buffer_extract c b s)) (b_ms b).
Proof.
  intros H. unfold buffer_extract.
  destruct (Z.ltb_spec (b_cur b - b_last b) (bc_shift c)) as [L|L]; [lia|].
  assert (Ha : averages_of (map average_run (runs (ssort id_lt (b_ms b)))) (b_ms b)).
  { apply averages_perm with (w := ssort id_lt (b_ms b)); [apply Permutation_sym, sort_id_perm|].
    apply averages_sorted, ssort_sorted, id_lt_swo. }
  destruct (_ && _); [exact Ha|]. destruct (_ =? _)%Z; exact Ha.
Qed.

(** C17: a gated extraction *)
Lemma extract_gated (c : bufcfg) (b : buffer F) s :
  (b_cur b - b_last b < bc_shift c)%Z ->
  snd (buffer_extract c b s) = [] /\ b_ms (fst (buffer_extract c b s)) = b_ms b /\
  b_last (fst (buffer_extract c b s)) = b_last b /\ b_cur (fst (buffer_extract c b s)) = b_cur b.
Proof.
  intros H. unfold buffer_extract. apply Z.ltb_lt in H. rewrite H. auto.
Qed.

Lemma averages_nonempty (out : list (radio F)) w : averages_of out w -> w <> [] -> out <> [].
Proof.
  intros (_ & Hi & _) Hw ->. destruct w as [|m w]; [congruence|].
  destruct (proj2 (Hi (r_id (st_data m)))). exists m. cbn; auto.
Qed.

Lemma drop_old_filter from (l : list srad) :
  StronglySorted (fun a b => ts_lt b a = false) l ->
  drop_old from l = filter (fun m => (from <=? st_ts m)%Z) l.
Proof.
  induction l as [|m t IH]; intros Hs; [reflexivity|]. inversion Hs as [|? ? Ht Hf]; subst.
  cbn. destruct (Z.leb_spec from (st_ts m)) as [L|L]; [|apply IH; exact Ht].
  f_equal. symmetry. clear IH Hs. induction t as [|x t IH]; [reflexivity|].
  inversion Hf as [|? ? Hx Hf']; subst. unfold ts_lt in Hx. cbn.
  destruct (Z.leb_spec from (st_ts x)); [|lia].
  f_equal. apply IH; [inversion Ht; assumption|exact Hf'].
Qed.

(** * Refinement to the abstract window *)
Record rel (c : bufcfg) (b : buffer F) (w : win F) : Prop := {
  rl_ms : Permutation (b_ms b) (map stored (win_content c w));
  rl_last : b_last b = w_ref w;
  rl_cur : b_cur b = win_now w;
  rl_step : b_step b = w_step w;
  rl_none : w_cur w = None -> w_all w = [] /\ w_since w = [] /\ w_ref w = 0%Z;
  rl_pos : forall t, w_cur w = Some t -> (0 < t)%Z;
  rl_drop : forall t, w_drop w = Some t -> (t <= win_now w)%Z;
}.
Lemma rel0 c : rel c buffer0 (@win0 F).
Proof. constructor; cbn; auto; discriminate. Qed.

Lemma stored_ts (m : srad) : st_ts (stored m) = st_ts m. Proof. reflexivity. Qed.

Lemma rel_add c b w m : (0 <= bc_keep c)%Z -> rel c b w -> (0 < st_ts m)%Z -> (win_now w <= st_ts m)%Z ->
  rel c (buffer_add b m) (win_step c w (BAdd m)).
Proof.
  intros Hk R Hp Ho. destruct R as [Hms Hl Hc Hst Hn Hpos Hd].
  assert (Hcur : (b_cur b =? 0)%Z = match w_cur w with None => true | Some _ => false end).
  { rewrite Hc. unfold win_now. destruct (w_cur w) as [t|]; [|reflexivity].
    specialize (Hpos t eq_refl). lia. }
  constructor; cbn; auto; try discriminate.
  - assert (E : win_content c (win_step c w (BAdd m)) = win_content c w ++ [m]).
    { unfold win_content. cbn. destruct (w_drop w) as [t|] eqn:Ed; [|reflexivity].
      destruct (bc_keep c =? 0)%Z; [reflexivity|]. rewrite filter_app. cbn.
      specialize (Hd t eq_refl). destruct (Z.leb_spec (t - bc_keep c) (st_ts m)); [reflexivity|lia]. }
    cbn in E. rewrite E, map_app. apply Permutation_app; [exact Hms|reflexivity].
  - rewrite Hcur. destruct (w_cur w); auto.
  - intros t E; injection E as <-; exact Hp.
  - intros t E. specialize (Hd t E). unfold win_now in *; cbn. lia.
Qed.

Lemma filter_map_stored p (l : list srad) :
  filter (fun m => p (st_ts m)) (map stored l) = map stored (filter (fun m => p (st_ts m)) l).
Proof. induction l as [|m t IH]; cbn; [reflexivity|]. destruct (p (st_ts m)); cbn; rewrite IH; reflexivity. Qed.

Lemma rel_extract c b w s : rel c b w -> (0 <= bc_keep c)%Z ->
  let w1 := win_step c w (BExtract s) in
  rel c (fst (buffer_extract c b s)) w1 /\
  (if win_ready c w then averages_of (snd (buffer_extract c b s)) (map stored (win_content c w))
   else snd (buffer_extract c b s) = []).
Proof.
  intros R Hk. cbv zeta. destruct R as [Hms Hl Hc Hst Hn Hpos Hd].
  unfold win_ready. rewrite <- Hl, <- Hc.
  assert (Hw : win_now (mkWin (w_all w) (w_since w) (w_drop w) (w_ref w) (w_cur w)
     (if (0 <? s)%Z then s else w_step w)) = win_now w) by reflexivity.
  split.
  2:{ destruct (Z.leb_spec (bc_shift c) (b_cur b - b_last b)) as [L|L].
      - eapply averages_perm; [exact Hms|]. apply extract_averages; exact L.
      - apply extract_gated; lia. }
  cbn [win_step]. cbv zeta. rewrite Hw. cbn [w_ref]. rewrite <- Hl, <- Hc.
  unfold buffer_extract. rewrite Hst.
  set (st := if (0 <? s)%Z then s else w_step w) in *.
  destruct (Z.ltb_spec (b_cur b - b_last b) (bc_shift c)) as [L|L].
  { constructor; cbn; auto. rewrite Hl; exact Hn. }
  unfold standing_still. cbn [w_step w_all w_since w_drop w_ref w_cur].
  change (win_now (mkWin (w_all w) (w_since w) (w_drop w) (b_last b) (w_cur w) st)) with (win_now w). rewrite <- Hc.
  destruct (bc_usestops c && (0 <? st)%Z && (bc_stop c <? b_cur b - st)%Z).
  { constructor; cbn; auto.
    - etransitivity; [apply Permutation_sym, sort_id_perm|exact Hms].
    - intros E. destruct (Hn E) as (H1 & H2 & H3). repeat split; auto.
      rewrite Hc. unfold win_now. rewrite E; reflexivity. }
  destruct (Z.eqb_spec (bc_keep c) 0) as [K|K].
  { constructor; cbn; auto.
    - unfold win_content; cbn. rewrite K; cbn. reflexivity.
    - intros E. destruct (Hn E) as (H1 & H2 & H3). repeat split; auto.
      rewrite Hc. unfold win_now. rewrite E; reflexivity.
    - intros t E; injection E as <-. unfold win_now in *; cbn. lia. }
  constructor; cbn; auto.
  - unfold win_content; cbn. destruct (Z.eqb_spec (bc_keep c) 0); [lia|].
    rewrite drop_old_filter by (apply ssort_sorted, ts_lt_swo).
    rewrite <- (filter_map_stored (fun t => (b_cur b - bc_keep c <=? t)%Z)).
    etransitivity; [apply filter_perm; apply Permutation_sym, sort_ts_perm|].
    etransitivity; [apply filter_perm; apply Permutation_sym, sort_id_perm|].
    etransitivity; [apply filter_perm; exact Hms|].
    unfold win_content. destruct (w_drop w) as [t|] eqn:Ed; [|reflexivity].
    destruct (Z.eqb_spec (bc_keep c) 0); [lia|].
    rewrite !(filter_map_stored (fun t0 => (b_cur b - bc_keep c <=? t0)%Z)).
    specialize (Hd t eq_refl).
    enough (E : filter (fun m : srad => (b_cur b - bc_keep c <=? st_ts m)%Z)
        (filter (fun m : srad => (t - bc_keep c <=? st_ts m)%Z) (w_all w)) =
        filter (fun m : srad => (b_cur b - bc_keep c <=? st_ts m)%Z) (w_all w)) by (rewrite E; reflexivity).
    rewrite Hc in *. clear -Hd. induction (w_all w) as [|m l IH]; [reflexivity|]. cbn.
    destruct (Z.leb_spec (t - bc_keep c) (st_ts m)); cbn; rewrite IH; [reflexivity|].
    destruct (Z.leb_spec (win_now w - bc_keep c) (st_ts m)); [lia|reflexivity].
  - intros E. destruct (Hn E) as (H1 & H2 & H3). repeat split; auto.
    rewrite Hc. unfold win_now. rewrite E; reflexivity.
  - intros t E; injection E as <-. unfold win_now in *; cbn. lia.
Qed.

Definition from_now (now : Z) (ops : list (bop F)) : Prop :=
  StronglySorted Z.le (now :: add_times ops) /\ Forall (fun t => (0 < t)%Z) (add_times ops).

Lemma win_now_step c (w : win F) s : win_now (win_step c w (BExtract s)) = win_now w.
Proof.
  cbn. destruct (_ <? _)%Z; [reflexivity|]. destruct (standing_still _ _); reflexivity.
Qed.

Lemma refine c ops : (0 <= bc_keep c)%Z -> forall b w, rel c b w -> from_now (win_now w) ops ->
  rel c (fst (buf_run c b ops)) (win_run c ops w) /\ outs_ok c w ops (snd (buf_run c b ops)).
Proof.
  intros Hk. induction ops as [|o ops IH]; intros b w R Ho; [split; [exact R|exact I]|].
  cbn [buf_run win_run fold_left]. destruct o as [m|s].
  - cbn [buf_step]. destruct Ho as [Hs Hp]. cbn in Hs, Hp.
    inversion Hp as [|? ? Hp1 Hp2]; subst. inversion Hs as [|? ? Hs1 Hs2]; subst.
    inversion Hs2 as [|? ? Hs3 Hs4]; subst.
    assert (R1 := rel_add m Hk R Hp1 Hs3).
    destruct (IH _ _ R1) as [R2 O2]. { split; [exact Hs1|exact Hp2]. }
    destruct (buf_run c (buffer_add b m) ops) as [b2 outs]. cbn [fst snd] in *.
    split; [exact R2|]. split; [reflexivity|exact O2].
  - cbn [buf_step]. destruct (rel_extract s R Hk) as [R1 O1].
    destruct (buffer_extract c b s) as [b1 out] eqn:Eb. cbn [fst snd] in *.
    destruct (IH b1 _ R1) as [R2 O2]. { rewrite win_now_step. exact Ho. }
    destruct (buf_run c b1 ops) as [b2 outs]. cbn [fst snd] in *.
    split; [exact R2|]. split; [exact O1|exact O2].
Qed.

Lemma refine0 c ops : (0 <= bc_keep c)%Z -> time_ordered ops ->
  Permutation (b_ms (fst (buf_run c buffer0 ops))) (map stored (win_content c (win_run c ops win0))) /\
  outs_ok c win0 ops (snd (buf_run c buffer0 ops)).
Proof.
  intros Hk [Hs Hp]. destruct (refine Hk (rel0 c) (ops := ops)) as [R O].
  - split; [|exact Hp]. cbn. constructor; [exact Hs|].
    rewrite Forall_forall in *. intros t Ht. specialize (Hp t Ht). lia.
  - split; [apply R|exact O].
Qed.

(** C17: spacing of the hand-overs *)
Lemma hand_spacing c ops : (0 <= bc_shift c)%Z ->
  forall b, Forall (fun t => (0 < t)%Z) (add_times ops) -> (0 <= b_cur b)%Z -> (b_cur b = 0 -> b_ms b = [])%Z ->
  (b_cur b = 0 -> b_last b = 0)%Z ->
  let ts := hand_times (b_cur b) ops (snd (buf_run c b ops)) in
  Sorted (fun x y => (bc_shift c <= y - x)%Z) ts /\
  ((b_cur b <> 0)%Z -> match ts with [] => True | t :: _ => (bc_shift c <= t - b_last b)%Z end).
Proof.
  intros Hk. induction ops as [|o ops IH]; intros b Hp Hb Hz Hzl; cbv zeta; [cbn; split; [constructor|auto]|].
  cbn [buf_run]. destruct o as [m|s]; cbn [buf_step].
  - cbn in Hp. inversion Hp as [|? ? Hp1 Hp2]; subst.
    destruct (IH (buffer_add b m)) as [H1 H2]; auto; [cbn; lia..|].
    destruct (buf_run c (buffer_add b m) ops) as [b2 outs]. cbn [snd hand_times] in *.
    cbn [b_cur buffer_add] in *. split; [exact H1|]. intros Hb0.
    assert (E : b_last (buffer_add b m) = b_last b) by (cbn; destruct (Z.eqb_spec (b_cur b) 0); [lia|reflexivity]).
    rewrite <- E. apply H2. lia.
  - destruct (Z_lt_le_dec (b_cur b - b_last b) (bc_shift c)) as [L|L].
    + destruct (extract_gated c b s L) as (Eo & Em & El & Ec).
      destruct (buffer_extract c b s) as [b1 out]. cbn [fst snd] in *. subst out.
      destruct (IH b1) as [H1 H2]; auto; [lia|rewrite Em, Ec; auto|rewrite El, Ec; auto|].
      destruct (buf_run c b1 ops) as [b2 outs]. cbn [snd hand_times] in *. rewrite Ec, El in *. auto.
    + assert (Ha := extract_averages c b s L).
      assert (E1 : b_cur (fst (buffer_extract c b s)) = b_cur b /\ b_last (fst (buffer_extract c b s)) = b_cur b).
      { unfold buffer_extract. destruct (Z.ltb_spec (b_cur b - b_last b) (bc_shift c)); [lia|].
        destruct (_ && _); [auto|]. destruct (_ =? _)%Z; auto. }
      assert (E2 : (b_cur b = 0)%Z -> b_ms (fst (buffer_extract c b s)) = []).
      { intros E. specialize (Hz E). unfold buffer_extract. rewrite Hz.
        assert (Es : ssort id_lt (@nil srad) = []) by (apply Permutation_nil, sort_id_perm).
        assert (Et : ssort ts_lt (@nil srad) = []) by (apply Permutation_nil, sort_ts_perm).
        rewrite Es. destruct (_ <? _)%Z; [reflexivity|]. destruct (_ && _); [reflexivity|].
        destruct (_ =? _)%Z; [reflexivity|]. rewrite Et. reflexivity. }
      destruct (buffer_extract c b s) as [b1 out]. cbn [fst snd] in *. destruct E1 as [Ec El].
      destruct (IH b1) as [H1 H2]; auto; [lia|intros; apply E2; lia|lia|].
      destruct (buf_run c b1 ops) as [b2 outs]. cbn [snd hand_times] in *. rewrite Ec, El in *.
      destruct out as [|x out].
      * split; [exact H1|]. intros Hb0. specialize (H2 Hb0). destruct (hand_times (b_cur b) ops outs); [exact I|]. lia.
      * assert (Hb0 : (b_cur b <> 0)%Z).
        { intros E. rewrite (Hz E) in Ha. destruct Ha as (_ & Hi & _).
          destruct (proj1 (Hi (r_id x)) (or_introl eq_refl)) as (m & [] & _). }
        split; [|intros _; exact L]. constructor; [exact H1|].
        specialize (H2 Hb0). destruct (hand_times (b_cur b) ops outs); constructor; exact H2.
Qed.

Lemma hand_spacing0 c ops : (0 <= bc_shift c)%Z -> Forall (fun t => (0 < t)%Z) (add_times ops) ->
  Sorted (fun x y => (bc_shift c <= y - x)%Z) (hand_times 0 ops (snd (buf_run c buffer0 ops))).
Proof. intros Hk Hp. apply (@hand_spacing c ops Hk buffer0); cbn; auto; lia. Qed.

(** C19 *)
Lemma still_keeps c ops : bc_usestops c = true ->
  forall b, (0 < b_step b)%Z -> (bc_stop c < b_cur b - b_step b)%Z ->
  Forall (fun t => (bc_stop c < t - b_step b)%Z) (add_times ops) ->
  Forall (fun o => match o with BExtract s => (s <= 0)%Z | BAdd _ => True end) ops ->
  Permutation (b_ms (fst (buf_run c b ops))) (b_ms b ++ map stored (added ops)).
Proof.
  intros Hu. induction ops as [|o ops IH]; intros b Hs Hc Ht Hn.
  - cbn. rewrite app_nil_r. reflexivity.
  - cbn [buf_run]. inversion Hn as [|? ? Hn1 Hn2]; subst. destruct o as [m|s]; cbn [buf_step].
    + cbn in Ht. inversion Ht as [|? ? Ht1 Ht2]; subst.
      specialize (IH (buffer_add b m)). destruct (buf_run c (buffer_add b m) ops) as [b2 outs].
      cbn [fst]. cbn [added flat_map]. fold (added ops). cbn in IH.
      etransitivity; [apply IH; auto|]. rewrite <- app_assoc. reflexivity.
    + assert (E : Permutation (b_ms (fst (buffer_extract c b s))) (b_ms b) /\
                  b_cur (fst (buffer_extract c b s)) = b_cur b /\ b_step (fst (buffer_extract c b s)) = b_step b).
      { unfold buffer_extract. destruct (Z.ltb_spec 0 s); [lia|].
        destruct (_ <? _)%Z; [repeat split; reflexivity|].
        rewrite Hu. destruct (Z.ltb_spec 0 (b_step b)); [|lia].
        destruct (Z.ltb_spec (bc_stop c) (b_cur b - b_step b)); [|lia].
        cbn. split; [apply Permutation_sym, sort_id_perm|auto]. }
      destruct (buffer_extract c b s) as [b1 out]. cbn [fst] in E. destruct E as (E1 & E2 & E3).
      specialize (IH b1). destruct (buf_run c b1 ops) as [b2 outs]. cbn [fst] in *.
      cbn [added flat_map app]. fold (added ops).
      etransitivity; [apply IH; rewrite ?E2, ?E3; auto|]. apply Permutation_app; [exact E1|reflexivity].
Qed.
End Buffer.

(** * Configuration *)
Lemma config_keep {F : Type} {NF : Num F} (s : settings F) c : buffer_config s = Ok c ->
  (0 <= bc_keep c)%Z /\
  (forall a h, to_ms (s_avg s) = Ok a -> to_ms (s_shift s) = Ok h -> 0 <= a -> 0 <= h -> 0 <= bc_shift c)%Z.
Proof.
  unfold buffer_config. intros H. inv_bind H. inv_bind Hb. inv_bind Hb0. injection Hb as <-. cbn.
  destruct (Z.eqb_spec a0 0), (Z.ltb_spec a a0); cbn; (split; [lia|]); intros a' h' E1 E2;
    rewrite E1 in Ha; rewrite E2 in Ha0; injection Ha as ->; injection Ha0 as ->; lia.
Qed.

(** * C16 over the reals *)
Section RealMean.
Local Open Scope R_scope.
Notation srad := (stamped (radio RX)).

Lemma mean_of_real (f : srad -> RX) g x :
  (forall m, In m g -> defined (f m)) -> g <> [] -> mean_of f g x ->
  x = Some (rsum (map (fun m => rval (f m)) g) / INR (List.length g)).
Proof.
  intros Hd Hn (g' & Hp & ->).
  rewrite fsum_rval by (intros m Hm; apply Hd; apply (Permutation_in _ (Permutation_sym Hp)); exact Hm).
  rewrite fofnat_real, <- (Permutation_length Hp).
  rewrite rx_div.
  - f_equal. f_equal. apply rsum_perm, Permutation_map, Permutation_sym, Hp.
  - apply not_0_INR. destruct g; [congruence|discriminate].
Qed.
Lemma mean_bounds (l : list R) lo hi : l <> [] -> (forall x, In x l -> lo <= x <= hi) ->
  lo <= rsum l / INR (List.length l) <= hi.
Proof.
  intros Hn H. assert (Hb := rsum_bounds l H).
  assert (Hp : 0 < INR (List.length l)) by (apply lt_0_INR; destruct l; [congruence|cbn; lia]).
  split; apply Rmult_le_reg_r with (INR (List.length l)); auto; unfold Rdiv; rewrite Rmult_assoc, Rinv_l by lra; lra.
Qed.

Lemma averages_real (out : list (radio RX)) (w : list srad) : averages_of out w ->
  (forall m, In m w -> defined (r_rssi (st_data m)) /\ defined (r_dist (st_data m))) ->
  forall o, In o out ->
  let g := of_tx (r_id o) w in
  g <> [] /\
  r_rssi o = Some (rsum (map (fun m => rval (r_rssi (st_data m))) g) / INR (List.length g)) /\
  r_dist o = Some (rsum (map (fun m => rval (r_dist (st_data m))) g) / INR (List.length g)).
Proof.
  intros (Hs & Hi & Ha) Hd o Ho g.
  assert (Hn : g <> []).
  { destruct (proj1 (Hi (r_id o)) (in_map _ _ _ Ho)) as (m & Hm & E).
    assert (Hg : In m g) by (apply filter_In; rewrite E, String.eqb_refl; auto).
    intros E0; rewrite E0 in Hg; destruct Hg. }
  destruct (Ha o Ho) as (H1 & H2 & _).
  split; [exact Hn|]. split; (eapply mean_of_real; [|exact Hn|eassumption]);
    intros m Hm; apply filter_In in Hm; apply Hd, Hm.
Qed.
Lemma averages_real_bounds (out : list (radio RX)) (w : list srad) : averages_of out w ->
  (forall m, In m w -> defined (r_rssi (st_data m)) /\ defined (r_dist (st_data m))) ->
  forall o lo hi, In o out ->
  (forall m, In m (of_tx (r_id o) w) -> lo <= rval (r_rssi (st_data m)) <= hi) ->
  exists x, r_rssi o = Some x /\ lo <= x <= hi.
Proof.
  intros Ha Hd o lo hi Ho Hb. destruct (averages_real Ha Hd o Ho) as (Hn & E & _).
  eexists. split; [exact E|]. rewrite <- (map_length (fun m => rval (r_rssi (st_data m)))).
  apply mean_bounds.
  - intros E0. apply map_eq_nil in E0. auto.
  - intros x Hx. apply in_map_iff in Hx. destruct Hx as (m & <- & Hm). auto.
Qed.

Lemma sorted_unique (l1 l2 : list string) :
  StronglySorted (fun a b => String.ltb a b = true) l1 ->
  StronglySorted (fun a b => String.ltb a b = true) l2 ->
  (forall x, In x l1 <-> In x l2) -> l1 = l2.
Proof.
  revert l2; induction l1 as [|x l1 IH]; intros [|y l2] H1 H2 H.
  - reflexivity.
  - destruct (proj2 (H y)); left; reflexivity.
  - destruct (proj1 (H x)); left; reflexivity.
  - inversion H1 as [|? ? S1 F1]; subst. inversion H2 as [|? ? S2 F2]; subst.
    rewrite Forall_forall in F1, F2.
    assert (x = y).
    { destruct (proj1 (H x) (or_introl eq_refl)) as [E|Hx]; [congruence|].
      destruct (proj2 (H y) (or_introl eq_refl)) as [E|Hy]; [congruence|].
      specialize (F2 x Hx). specialize (F1 y Hy). rewrite (str_ltb_antisym _ _ F1) in F2; discriminate. }
    subst y. f_equal. apply IH; auto. intros z. split; intros Hz.
    + destruct (proj1 (H z) (or_intror Hz)) as [E|E]; [|exact E]. subst z. 
      specialize (F1 x Hz). rewrite str_ltb_irrefl in F1; discriminate.
    + destruct (proj2 (H z) (or_intror Hz)) as [E|E]; [|exact E]. subst z.
      specialize (F2 x Hz). rewrite str_ltb_irrefl in F2; discriminate.
Qed.

(** arrival order does not matter *)
Lemma averages_order (out out' : list (radio RX)) (w w' : list srad) :
  averages_of out w -> averages_of out' w' -> Permutation w w' ->
  (forall m, In m w -> defined (r_rssi (st_data m)) /\ defined (r_dist (st_data m))) ->
  map (fun o => (r_id o, r_rssi o, r_dist o)) out = map (fun o => (r_id o, r_rssi o, r_dist o)) out'.
Proof.
  intros Ha Ha' Hp Hd. assert (Hb := averages_perm (Permutation_sym Hp) Ha').
  assert (Hid : map (@r_id RX) out = map (@r_id RX) out').
  { apply sorted_unique; [apply Ha|apply Hb|].
    intros x. rewrite (proj1 (proj2 Ha) x), (proj1 (proj2 Hb) x). reflexivity. }
  assert (R1 := averages_real Ha Hd). assert (R2 := averages_real Hb Hd).
  clear Ha Ha' Hb Hp. revert out' Hid R2.
  induction out as [|o out IH]; intros [|o' out'] Hid R2; try discriminate; [reflexivity|].
  cbn [map] in *. injection Hid as E1 E2. f_equal.
  - destruct (R1 o (or_introl eq_refl)) as (_ & A1 & A2). destruct (R2 o' (or_introl eq_refl)) as (_ & B1 & B2).
    rewrite A1, A2, B1, B2, E1. reflexivity.
  - apply IH; auto; intros z Hz; [apply R1|apply R2]; right; exact Hz.
Qed.
End RealMean.

(** * C20 *)
Section Valid.
Context {F : Type} {NF : Num F}.

Lemma get_level_wf (c : collector F) l : wf_collector c -> In l (col_levels c) ->
  has_level c (l_id l) = true /\ get_level c (l_id l) = Ok l.
Proof.
  intros [Hn Hi] Hl. apply In_nth_error in Hl. destruct Hl as (i & Hl).
  assert (E : alookup (l_id l) (col_index c) = Some i) by (apply Hi; exists l; auto).
  unfold has_level, amem, get_level. rewrite E. cbn. rewrite Hl. auto.
Qed.

Lemma add_geo_level_wf (c c' : collector F) g : wf_collector c -> ~ In (gl_id g) (map (@l_id F) (col_levels c)) ->
  add_geo_level c g = Ok c' ->
  wf_collector c' /\ map (@l_id F) (col_levels c') = map (@l_id F) (col_levels c) ++ [gl_id g].
Proof.
  intros [Hn Hi] Hg H. unfold add_geo_level in H. inv_bind H. injection Hb as <-.
  assert (El : l_id a = gl_id g).
  { unfold local_level in Ha. inv_bind Ha. injection Hb as <-. reflexivity. }
  assert (Em : amem (gl_id g) (col_index c) = false).
  { unfold amem. destruct (alookup (gl_id g) (col_index c)) as [i|] eqn:E; [|reflexivity].
    apply Hi in E. destruct E as (l & Hl & E). exfalso; apply Hg. rewrite <- E.
    apply in_map. eapply nth_error_In; exact Hl. }
  cbn [col_levels]. split; [|rewrite map_app, <- El; reflexivity]. split.
  - cbn [col_levels]. rewrite map_app. cbn. rewrite El. eapply Permutation_NoDup; [apply Permutation_cons_append|].
    constructor; assumption.
  - intros id i. cbn [col_levels col_index]. unfold ainsert. rewrite Em, alookup_app, app_length.
    replace (List.length (col_levels c) + List.length [a] - 1)%nat with (List.length (col_levels c)) by (cbn; lia).
    destruct (alookup id (col_index c)) as [j|] eqn:E.
    + split.
      * intros H; injection H as <-. apply Hi in E. destruct E as (l & Hl & E). exists l. split; [|exact E].
        rewrite nth_error_app1; [exact Hl|]. apply nth_error_Some; congruence.
      * intros (l & Hl & E2). destruct (Nat.lt_ge_cases i (List.length (col_levels c))) as [L|L].
        -- rewrite nth_error_app1 in Hl by exact L.
           rewrite <- E. apply Hi. exists l; auto.
        -- rewrite nth_error_app2 in Hl by exact L. destruct (i - List.length (col_levels c))%nat as [|k]; cbn in Hl; [|destruct k; discriminate].
           injection Hl as <-. exfalso. apply Hg. rewrite <- El, E2. apply Hi in E. destruct E as (l & Hl & <-).
           apply in_map. eapply nth_error_In; exact Hl.
    + cbn. destruct (String.eqb_spec id (gl_id g)) as [->|En].
      * split.
        -- intros H; injection H as <-. exists a. rewrite nth_error_app2, Nat.sub_diag by lia. auto.
        -- intros (l & Hl & E2). destruct (Nat.lt_ge_cases i (List.length (col_levels c))) as [L|L].
           ++ rewrite nth_error_app1 in Hl by exact L. exfalso; apply Hg. rewrite <- E2. apply in_map. eapply nth_error_In; exact Hl.
           ++ rewrite nth_error_app2 in Hl by exact L.
              destruct (i - List.length (col_levels c))%nat as [|k] eqn:Ek; cbn in Hl; [|destruct k; discriminate].
              f_equal; lia.
      * split; [discriminate|]. intros (l & Hl & E2).
        destruct (Nat.lt_ge_cases i (List.length (col_levels c))) as [L|L].
        -- rewrite nth_error_app1 in Hl by exact L.
           assert (alookup id (col_index c) = Some i) by (apply Hi; exists l; auto). congruence.
        -- rewrite nth_error_app2 in Hl by exact L.
           destruct (i - List.length (col_levels c))%nat as [|k] eqn:Ek; cbn in Hl; [|destruct k; discriminate].
           injection Hl as <-. congruence.
Qed.
Lemma col0_wf : wf_collector (@col0 F).
Proof.
  split; [constructor|]. intros id i. cbn. split; [discriminate|].
  intros (l & H & _). destruct i; discriminate.
Qed.
Lemma fold_throw A B (f : A -> B -> res A) l (r : res A) : (forall a, r <> Ok a) ->
  forall a, fold_left (fun acc x => y <- acc ;; f y x) l r <> Ok a.
Proof.
  revert r; induction l as [|x l IH]; intros r Hr a; cbn; [apply Hr|].
  apply IH. intros b. destruct r; cbn; try discriminate. exfalso; eapply Hr; reflexivity.
Qed.
Lemma add_geo_levels_wf gs : forall c c' : collector F, wf_collector c ->
  NoDup (map (@l_id F) (col_levels c) ++ map (@gl_id F) gs) ->
  add_geo_levels c gs = Ok c' -> wf_collector c'.
Proof.
  induction gs as [|g gs IH]; intros c c' Hw Hn H.
  - injection H as <-; exact Hw.
  - unfold add_geo_levels in H. cbn [fold_left bind] in H.
    destruct (add_geo_level c g) as [c1| | |] eqn:E;
      try (exfalso; revert H; apply (@fold_throw _ _ (@add_geo_level F NF)); discriminate).
    cbn [map] in Hn. destruct (fun X => add_geo_level_wf g Hw X E) as [H1 H2].
    + apply NoDup_remove_2 in Hn. intros Hi. apply Hn, in_or_app; auto.
    + apply (IH c1 c' H1); [|exact H]. rewrite H2, <- app_assoc. exact Hn.
Qed.

Lemma find_split A (p : A -> bool) l x : find p l = Some x ->
  exists a b, l = a ++ x :: b /\ Forall (fun y => p y = false) a /\ p x = true.
Proof.
  induction l as [|y l IH]; cbn; [discriminate|]. destruct (p y) eqn:E; intros H.
  - injection H as <-. exists [], l. auto.
  - destruct (IH H) as (a & b & -> & Ha & Hx). exists (y :: a), b. auto.
Qed.
Lemma find_app_none A (p : A -> bool) a b : Forall (fun y => p y = false) a -> find p (a ++ b) = find p b.
Proof. induction 1 as [|y a Hy _ IH]; cbn; [reflexivity|]. rewrite Hy; exact IH. Qed.

Lemma tx_supported_spec s (c : collector F) tx : wf_collector c ->
  exists v, (match find_level_by_tx c tx with
             | Some _ => tx_supported s c tx
             | None => Ok false
             end) = Ok v /\
  (v = true <-> exists before l after t,
    col_levels c = before ++ l :: after /\
    Forall (fun l' => ~ In tx (map fst (l_txs l'))) before /\
    alookup tx (l_txs l) = Some t /\ (t_type t = TLOCATOR <-> s_tracking s = true)).
Proof.
  intros Hw. unfold tx_supported. destruct (find_level_by_tx c tx) as [lid|] eqn:Ef.
  - unfold find_level_by_tx in Ef. destruct (find _ _) as [l|] eqn:El; [|discriminate].
    injection Ef as <-. apply find_split in El. destruct El as (a & b & Ec & Ha & Hx).
    destruct (@get_level_wf c l Hw) as [H1 H2]; [rewrite Ec; apply in_elt|].
    rewrite H1, H2. cbn [negb bind]. rewrite Hx. cbn [negb].
    unfold contains_tx, amem in Hx. unfold get_tx.
    destruct (alookup tx (l_txs l)) as [t|] eqn:Et; [|discriminate]. cbn [at_or_throw bind].
    eexists. split; [reflexivity|].
    assert (Hfin : (if s_tracking s then is_locator (t_type t) else negb (is_locator (t_type t))) = true <->
                   (t_type t = TLOCATOR <-> s_tracking s = true)).
    { destruct (s_tracking s), (t_type t); cbn; intuition congruence. }
    split.
    + intros Hv. exists a, l, b, t. repeat split; auto; try (apply Hfin; exact Hv).
      eapply Forall_impl; [|exact Ha]. intros l' Hl'. cbn in Hl'. rewrite <- amem_true. unfold contains_tx in Hl'. congruence.
    + intros (a' & l' & b' & t' & Ec' & Ha' & Et' & Hv). apply Hfin.
      assert (E : find (fun l0 => contains_tx l0 tx) (col_levels c) = Some l).
      { rewrite Ec, find_app_none by exact Ha. cbn. unfold contains_tx, amem. rewrite Et; reflexivity. }
      rewrite Ec' in E. rewrite find_app_none in E.
      * cbn in E. unfold contains_tx at 1, amem in E. rewrite Et' in E. injection E as ->. congruence.
      * eapply Forall_impl; [|exact Ha']. intros l0 Hl0. cbn in Hl0. rewrite <- amem_true in Hl0.
        unfold contains_tx. destruct (amem tx (l_txs l0)); [exfalso; apply Hl0; reflexivity|reflexivity].
  - exists false. split; [reflexivity|]. split; [discriminate|].
    intros (a' & l' & b' & t' & Ec' & Ha' & Et' & Hv).
    unfold find_level_by_tx in Ef. destruct (find _ _) eqn:El; [discriminate|].
    apply find_none with (x := l') in El; [|rewrite Ec'; apply in_elt].
    unfold contains_tx, amem in El. rewrite Et' in El. discriminate.
Qed.

Lemma valid_signal_spec s (c : collector F) m : wf_collector c ->
  exists v, valid_signal s c m = Ok v /\ (v = true <-> accepted_radio s c m).
Proof.
  intros Hw. unfold valid_signal, accepted_radio, acceptable_tx.
  destruct (tx_supported_spec s (r_id m) Hw) as (v & Ev & Hv).
  assert (E : (if s_unknown s then Ok true
        else match find_level_by_tx c (r_id m) with
             | Some _ => tx_supported s c (r_id m)
             | None => Ok false
             end) = Ok (s_unknown s || v)).
  { destruct (s_unknown s); [reflexivity|exact Ev]. }
  rewrite E. cbn [bind]. eexists. split; [reflexivity|].
  rewrite <- Hv, <- orb_true_iff.
  assert (Hsig : signal_supported s (r_type m) = true <-> enabled_signal s (r_type m)).
  { unfold signal_supported, enabled_signal, use_wifi, use_ble.
    destruct (r_type m), (s_signals s); split; intros; try discriminate; try congruence; try reflexivity. }
  rewrite <- Hsig. clear Hsig Hv E Ev.
  unfold rssi_valid. destruct (s_mtype s); cbn [negb andb].
  - destruct (r_rssi m <! f0), (s_cutoff s <! r_rssi m), (s_unknown s || v), (signal_supported s (r_type m)); cbn; intuition congruence.
  - destruct (r_type m), (s_unknown s || v), (signal_supported s _); cbn; intuition congruence.
  - destruct (r_type m), (s_unknown s || v), (signal_supported s _); cbn; intuition congruence.
Qed.

(** effect of a radio measurement *)
Lemma update_radio_spec s (c : collector F) p r ts : wf_collector c ->
  exists p', update_measurements s c p (mkSt (MRadio r) ts) = Ok p' /\
  pp_cur p' = ts /\ pp_sensor p' = pp_sensor p /\ pp_nmea p' = pp_nmea p /\
  ((accepted_radio s c r /\ pp_signal p' = ts /\ pp_buf p' = buffer_add (pp_buf p) (mkSt r ts)) \/
   (~ accepted_radio s c r /\ pp_signal p' = pp_signal p /\ pp_buf p' = pp_buf p)).
Proof.
  intros Hw. destruct (valid_signal_spec s r Hw) as (v & Ev & Hv).
  unfold update_measurements. cbn [st_data st_ts]. rewrite Ev. cbn [bind].
  destruct v; (eexists; split; [reflexivity|]); cbn; repeat split; auto.
  - left. split; [apply Hv; reflexivity|auto].
  - right. split; [intros H; apply Hv in H; discriminate|auto].
Qed.
Lemma update_other_spec s (c : collector F) p m :
  (forall r, st_data m <> MRadio r) ->
  exists p', update_measurements s c p m = Ok p' /\ pp_signal p' = pp_signal p /\ pp_buf p' = pp_buf p.
Proof.
  intros H. unfold update_measurements. destruct (st_data m) as [r|d|d] eqn:E; [exfalso; apply (H r); reflexivity| |];
    eexists; (split; [reflexivity|]); auto.
Qed.
End Valid.

(** * C21 *)
Section Closest.
Context {F : Type} {NF : Num F} {OF : NumOrd F} {SO : Sorter}.

Lemma ssorted_rev A (R : A -> A -> Prop) l : StronglySorted R l -> StronglySorted (fun a b => R b a) (rev l).
Proof.
  induction 1 as [|x l Hl IH Hf]; cbn; [constructor|].
  clear Hl. revert IH. generalize (rev l) (fun y => proj2 (in_rev l y)). intros r Hr Hs.
  induction r as [|y r IH]; cbn; [repeat constructor|].
  inversion Hs as [|? ? Hs1 Hf1]; subst. constructor.
  - apply IH; [intros z Hz; apply Hr; right; exact Hz|exact Hs1].
  - apply Forall_app. split; [exact Hf1|]. constructor; [|constructor].
    rewrite Forall_forall in Hf. apply Hf. apply Hr. left; reflexivity.
Qed.
Lemma ssorted_app A (R : A -> A -> Prop) l1 l2 : StronglySorted R (l1 ++ l2) ->
  StronglySorted R l1 /\ (forall x y, In x l1 -> In y l2 -> R x y).
Proof.
  induction l1 as [|x l1 IH]; cbn; intros H; [split; [constructor|intros ? ? []]|].
  inversion H as [|? ? H1 H2]; subst. destruct (IH H1) as [I1 I2]. apply Forall_app in H2.
  split; [constructor; [exact I1|apply H2]|]. intros a b [<-|Ha] Hb; [|auto].
  destruct H2 as [_ H2]. rewrite Forall_forall in H2; auto.
Qed.

Lemma rssi_swo (ms : list (radio F)) : (forall m, In m ms -> (r_rssi m <=! r_rssi m) = true) ->
  strict_weak_on rssi_lt ms.
Proof.
  intros H. unfold strict_weak_on, rssi_lt. split; [|split].
  - intros a _. apply flt_irrefl.
  - intros a b c _ _ _. apply flt_trans.
  - intros a b c Ha Hb Hc H1 H2. destruct (r_rssi a <! r_rssi c) eqn:E; [|reflexivity].
    assert (L : (r_rssi c <=! r_rssi b) = true) by (apply flt_total; auto).
    rewrite <- H1. symmetry. eapply flt_le_trans; eassumption.
Qed.

Lemma closest_spec s (ms sel : list (radio F)) : s_closest s = true -> closest_aps s ms = Ok sel ->
  exists dropped, Permutation ms (sel ++ dropped) /\
  List.length sel = Nat.min (s_nclosest s) (List.length ms) /\
  StronglySorted (fun a b => (r_rssi a <! r_rssi b) = false) sel /\
  (forall a b, In a sel -> In b dropped -> (r_rssi a <! r_rssi b) = false).
Proof.
  intros Hc H. unfold closest_aps in H. rewrite Hc in H. inv_bind H. rename a into asc. cbv zeta in Hb.
  apply sort_res_ok in Ha. destruct Ha as (_ & Hp & Hs).
  assert (Hp' : Permutation ms (rev asc)).
  { etransitivity; [apply Permutation_rev|]. etransitivity; [exact Hp|apply Permutation_rev]. }
  apply ssorted_rev in Hs. injection Hb as <-.
  rewrite (Permutation_length Hp').
  destruct (Nat.ltb_spec (s_nclosest s) (List.length (rev asc))) as [L|L].
  - exists (skipn (s_nclosest s) (rev asc)). rewrite firstn_skipn.
    rewrite <- (firstn_skipn (s_nclosest s) (rev asc)) in Hs. apply ssorted_app in Hs.
    split; [exact Hp'|]. split; [rewrite firstn_length; lia|]. split; [exact (proj1 Hs)|exact (proj2 Hs)].
  - exists []. rewrite app_nil_r. split; [exact Hp'|]. split; [lia|]. split; [exact Hs|intros ? ? _ []].
Qed.
Lemma closest_defined s (ms : list (radio F)) : (forall m, In m ms -> (r_rssi m <=! r_rssi m) = true) ->
  exists sel, closest_aps s ms = Ok sel.
Proof.
  intros H. unfold closest_aps. destruct (s_closest s); [|eexists; reflexivity].
  unfold sort_res. assert (E : swo_b rssi_lt (rev ms) = true).
  { apply swo_b_spec, rssi_swo. intros m Hm. apply H, in_rev, Hm. }
  rewrite E. cbn. eexists; reflexivity.
Qed.

Lemma set_distance_keeps s (c : collector F) m m' : set_distance s c m = Ok m' ->
  r_id m' = r_id m /\ r_rssi m' = r_rssi m.
Proof.
  unfold set_distance. destruct (negb _).
  - destruct (find_level_by_tx c (r_id m)).
    + intros H. inv_bind H. inv_bind Hb. injection Hb0 as <-. auto.
    + intros H; injection H as <-; auto.
  - intros H; injection H as <-; auto.
Qed.

(** the whole extraction *)
Lemma extract_radio_closest s bc (c : collector F) p ls p' out :
  s_closest s = true -> extract_radio s bc c p ls = Ok (p', out) ->
  let avg := snd (buffer_extract bc (pp_buf p) ls) in
  exists sel dropped, Permutation avg (sel ++ dropped) /\
  Forall2 (fun m m' => r_id m' = r_id m /\ r_rssi m' = r_rssi m) sel out /\
  List.length out = Nat.min (s_nclosest s) (List.length avg) /\
  StronglySorted (fun a b => (r_rssi a <! r_rssi b) = false) out /\
  (forall a b, In a out -> In b dropped -> (r_rssi a <! r_rssi b) = false).
Proof.
  intros Hc H. cbv zeta. unfold extract_radio in H.
  destruct (buffer_extract bc (pp_buf p) ls) as [b avg]. cbn [snd].
  inv_bind H. inv_bind Hb. injection Hb0 as <- <-. rename a into sel, a0 into out'.
  destruct (closest_spec _ _ Hc Ha) as (dropped & H1 & H2 & H3 & H4).
  assert (Hf : Forall2 (fun m m' => r_id m' = r_id m /\ r_rssi m' = r_rssi m) sel out').
  { apply mapM_forall2 in Ha0. eapply Forall2_imp; [|exact Ha0].
    intros m m'. apply set_distance_keeps. }
  exists sel, dropped. split; [exact H1|]. split; [exact Hf|].
  split; [rewrite <- H2; clear -Hf; induction Hf; cbn; congruence|].
  assert (Hin : forall o, In o out' -> exists m, In m sel /\ r_rssi o = r_rssi m).
  { clear -Hf. induction Hf as [|m m' sel out [_ E] Hf IH]; intros o Ho; [destruct Ho|].
    destruct Ho as [<-|Ho]; [exists m; cbn; auto|]. destruct (IH o Ho) as (m0 & H0 & E0). exists m0; cbn; auto. }
  split.
  - clear -H3 Hf. induction Hf as [|m m' sel out [_ E] Hf IH]; [constructor|].
    inversion H3 as [|? ? H5 H6]; subst. constructor; [auto|].
    clear -H6 Hf E. rewrite E. induction Hf as [|m0 m0' sel out [_ E0] Hf IH]; constructor.
    + inversion H6; subst. rewrite E0; assumption.
    + apply IH. inversion H6; assumption.
  - intros o x Ho Hx. destruct (Hin o Ho) as (m & Hm & ->). auto.
Qed.
End Closest.
