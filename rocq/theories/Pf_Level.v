(** Proofs of C23-C25. *)
From Coq Require Import Reals Lra.
From Verif Require Import Lib NumOrd NumReal LevelEst Spec_Level.
Set Implicit Arguments.
Local Open Scope string_scope.
Local Open Scope list_scope.

(** * C23 *)
Section Baro.
Context {F : Type} {NF : Num F}.

Lemma lastn_all A n (l : list A) : (List.length l <= n)%nat -> lastn n l = l.
Proof. intros H. unfold lastn. replace (List.length l - n)%nat with 0%nat by lia. reflexivity. Qed.
Lemma lastn_length A n (l : list A) : List.length (lastn n l) = Nat.min n (List.length l).
Proof. unfold lastn. rewrite skipn_length. lia. Qed.
Lemma lastn_snoc A n (l : list A) x : lastn (S n) (l ++ [x]) = lastn n l ++ [x].
Proof.
  unfold lastn. rewrite app_length. cbn [List.length].
  replace (List.length l + 1 - S n)%nat with (List.length l - n)%nat by lia.
  rewrite skipn_app. f_equal.
  replace (List.length l - n - List.length l)%nat with 0%nat by lia. reflexivity.
Qed.
Lemma skipn_tl A n (l : list A) : tl (skipn n l) = skipn (S n) l.
Proof. revert l; induction n as [|n IH]; intros [|x l]; cbn; auto. rewrite IH. destruct l; reflexivity. Qed.
Lemma lastn_tl A n (l : list A) : (n < List.length l)%nat -> tl (lastn (S n) l) = lastn n l.
Proof.
  intros H. unfold lastn. rewrite skipn_tl. f_equal. lia.
Qed.
(** drop the front when more than [n] elements are held *)
Lemma lastn_trim A n (l : list A) :
  (if Nat.ltb n (List.length (lastn (S n) l)) then tl (lastn (S n) l) else lastn (S n) l) = lastn n l.
Proof.
  rewrite lastn_length. destruct (Nat.ltb_spec n (Nat.min (S n) (List.length l))) as [H|H].
  - apply lastn_tl. lia.
  - rewrite !lastn_all by lia. reflexivity.
Qed.

Lemma newest_snoc (ps : list F) p :
  newest (ps ++ [p]) =
  (if Nat.ltb chunk (List.length (newest ps)) then tl (newest ps) else newest ps) ++ [p].
Proof. unfold newest, chunk. rewrite lastn_trim, lastn_snoc. reflexivity. Qed.

Lemma older_snoc (ps : list F) p :
  let old := if Nat.ltb chunk (List.length (older ps)) then tl (older ps) else older ps in
  older (ps ++ [p]) =
  match newest ps with
  | x :: _ => if Nat.ltb chunk (List.length (newest ps)) then old ++ [x] else old
  | [] => old
  end.
Proof.
  cbv zeta.
  assert (Eo : (if Nat.ltb chunk (List.length (older ps)) then tl (older ps) else older ps) =
               lastn 100 (firstn (List.length ps - 101) ps)) by apply (lastn_trim 100).
  rewrite Eo. clear Eo. unfold chunk.
  destruct (Nat.le_gt_cases (List.length ps) 100) as [H|H].
  - assert (E : newest ps = ps) by (apply lastn_all; lia). rewrite E.
    assert (E1 : older (ps ++ [p]) = []).
    { unfold older. rewrite app_length. cbn [List.length].
      replace (List.length ps + 1 - 101)%nat with 0%nat by lia. reflexivity. }
    assert (E2 : lastn 100 (firstn (List.length ps - 101) ps) = []).
    { replace (List.length ps - 101)%nat with 0%nat by lia. reflexivity. }
    rewrite E1, E2. destruct ps; [reflexivity|].
    destruct (Nat.ltb_spec 100 (List.length (f :: ps))); [lia|reflexivity].
  - set (k := (List.length ps - 101)%nat).
    assert (Ln : List.length (newest ps) = 101%nat) by (unfold newest; rewrite lastn_length; lia).
    destruct (newest ps) as [|x t] eqn:En; [discriminate|].
    rewrite Ln. cbn [Nat.ltb Nat.leb].
    unfold older. rewrite app_length. cbn [List.length].
    replace (List.length ps + 1 - 101)%nat with (S k) by lia.
    assert (Ef : firstn (S k) (ps ++ [p]) = firstn k ps ++ [x]).
    { unfold newest, lastn in En. fold k in En.
      rewrite <- (firstn_skipn k ps) at 1. rewrite En. rewrite <- app_assoc.
      replace (S k) with (List.length (firstn k ps) + 1)%nat by (rewrite firstn_length; lia).
      rewrite firstn_app_2. reflexivity. }
    rewrite Ef. apply (lastn_snoc 100).
Qed.

Lemma update_buffers_spec (ps : list F) b m :
  ba_new b = newest ps -> ba_old b = older ps ->
  let ps' := ps ++ match s_type (st_data m) with BAROMETER => [vx (s_val (st_data m))] | _ => [] end in
  let b' := baro_update_buffers b m in
  ba_new b' = newest ps' /\ ba_old b' = older ps' /\ ba_init b' = ba_init b /\ ba_level b' = ba_level b.
Proof.
  intros Hn Ho. cbv zeta. unfold baro_update_buffers.
  destruct (s_type (st_data m)); try (rewrite app_nil_r; auto).
  rewrite newest_snoc, older_snoc. rewrite Hn, Ho.
  destruct (newest ps) as [|x t] eqn:En.
  - destruct (Nat.ltb_spec chunk (@List.length F [])) as [H|H]; [cbn in H; lia|]. auto.
  - destruct (Nat.ltb chunk (List.length (x :: t))); cbn [tl ba_new ba_old ba_init ba_level]; auto.
Qed.

Lemma calc_mean_pos (l : list F) : l <> [] -> calc_mean l = mean l.
Proof. destruct l; [congruence|reflexivity]. Qed.

Lemma newest_len (ps : list F) : List.length (newest ps) = Nat.min 101 (List.length ps).
Proof. apply lastn_length. Qed.
Lemma older_len (ps : list F) : List.length (older ps) = Nat.min 101 (List.length ps - 101).
Proof. unfold older. rewrite lastn_length, firstn_length. lia. Qed.

Lemma update_level_spec (ps : list F) b lid :
  ba_new b = newest ps -> ba_old b = older ps ->
  ba_new (baro_update_level b lid) = newest ps /\ ba_old (baro_update_level b lid) = older ps /\
  ba_init (baro_update_level b lid) = ba_init b /\
  ba_level (baro_update_level b lid) = baro_decides (ba_level b) lid ps.
Proof.
  intros Hn Ho. unfold baro_update_level, baro_decides. rewrite Hn, Ho, newest_len, older_len.
  unfold chunk.
  destruct (Nat.ltb_spec (List.length ps) 201) as [L|L].
  - replace (Nat.ltb 100 (Nat.min 101 (List.length ps)) && Nat.leb 100 (Nat.min 101 (List.length ps - 101)))
      with false; [auto|].
    symmetry. apply andb_false_iff. right. apply Nat.leb_gt. lia.
  - replace (Nat.ltb 100 (Nat.min 101 (List.length ps))) with true by (symmetry; apply Nat.ltb_lt; lia).
    replace (Nat.leb 100 (Nat.min 101 (List.length ps - 101))) with true by (symmetry; apply Nat.leb_le; lia).
    cbn [andb].
    rewrite !calc_mean_pos.
    2:{ intros E. apply (f_equal (@List.length F)) in E. rewrite older_len in E. cbn [List.length] in E. lia. }
    2:{ intros E. apply (f_equal (@List.length F)) in E. rewrite newest_len in E. cbn [List.length] in E. lia. }
    destruct (String.eqb_spec (ba_level b) lid) as [E|E]; cbn [negb]; [auto|].
    destruct ((mean (newest ps) <=! feps) || (mean (older ps) <=! feps)); [auto|].
    destruct (fofZ 2 <! fabs (delta_height (mean (newest ps)) (mean (older ps)))); auto.
Qed.

Lemma baro_outputs_app b cs1 cs2 :
  baro_outputs b (cs1 ++ cs2) =
  baro_outputs b cs1 ++ baro_outputs (fold_left (fun b c => fst (baro_step b (fst c) (snd c))) cs1 b) cs2.
Proof. revert b; induction cs1 as [|c t IH]; intros b; cbn; [reflexivity|]. rewrite IH; reflexivity. Qed.
Lemma last_snoc A (l : list A) x d : last (l ++ [x]) d = x.
Proof. apply last_last. Qed.
Lemma baro_state_snoc (cs : list (bcall F)) c :
  baro_state (cs ++ [c]) = fst (baro_step (baro_state cs) (fst c) (snd c)).
Proof. unfold baro_state. rewrite fold_left_app. reflexivity. Qed.
Lemma baro_last (cs : list (bcall F)) c :
  last (baro_outputs baro0 (cs ++ [c])) "" = snd (baro_step (baro_state cs) (fst c) (snd c)).
Proof. rewrite baro_outputs_app. cbn [baro_outputs]. rewrite last_snoc. reflexivity. Qed.

(** state after a non-empty sequence of calls *)
Lemma baro_inv (cs : list (bcall F)) c :
  let b := baro_state (cs ++ [c]) in
  let ps := pressures (tl (cs ++ [c])) in
  ba_init b = true /\ ba_new b = newest ps /\ ba_old b = older ps /\
  (cs <> [] -> ba_level b = last (baro_outputs baro0 (cs ++ [c])) "").
Proof.
  cbv zeta. revert c; induction cs as [|c' cs IH] using rev_ind; intros c.
  - cbn. repeat split; auto. congruence.
  - destruct (IH c') as (Hi & Hn & Ho & _). rewrite baro_last. rewrite baro_state_snoc.
    set (b := baro_state (cs ++ [c'])) in *.
    set (ps := pressures (tl (cs ++ [c']))) in *.
    assert (Et : pressures (tl ((cs ++ [c']) ++ [c])) = ps ++ pressures [c]).
    { subst ps. unfold pressures. rewrite <- flat_map_app. f_equal. destruct cs; reflexivity. }
    rewrite Et. unfold baro_step. rewrite Hi. cbn [negb fst snd].
    destruct (@update_buffers_spec ps b (snd c) Hn Ho) as (Hn' & Ho' & Hi' & Hl').
    assert (Ep : pressures [c] = match s_type (st_data (snd c)) with BAROMETER => [vx (s_val (st_data (snd c)))] | _ => [] end).
    { unfold pressures; cbn [flat_map]. rewrite app_nil_r. reflexivity. }
    rewrite <- Ep in *.
    destruct (@update_level_spec _ _ (fst c) Hn' Ho') as (Hn2 & Ho2 & Hi2 & Hl2).
    repeat split; auto. rewrite Hi2, Hi', Hi. reflexivity.
Qed.

Lemma baro_decision (cs : list (bcall F)) (c : bcall F) :
  last (baro_outputs baro0 (cs ++ [c])) "" =
  match cs with
  | [] => fst c
  | _ => baro_decides (last (baro_outputs baro0 cs) "") (fst c) (pressures (tl (cs ++ [c])))
  end.
Proof.
  rewrite baro_last. induction cs as [|c' cs _] using rev_ind; [reflexivity|].
  destruct (baro_inv cs c') as (Hi & Hn & Ho & Hl).
  assert (Et : pressures (tl ((cs ++ [c']) ++ [c])) = pressures (tl (cs ++ [c'])) ++ pressures [c]).
  { unfold pressures. rewrite <- flat_map_app. f_equal. destruct cs; reflexivity. }
  destruct ((cs ++ [c'])) eqn:Ec; [destruct cs; discriminate|]. rewrite <- Ec in *. clear Ec l b.
  rewrite Et. unfold baro_step. rewrite Hi. cbn [negb snd].
  destruct (@update_buffers_spec _ _ (snd c) Hn Ho) as (Hn' & Ho' & Hi' & Hl').
  assert (Ep : pressures [c] = match s_type (st_data (snd c)) with BAROMETER => [vx (s_val (st_data (snd c)))] | _ => [] end).
  { unfold pressures; cbn [flat_map]. rewrite app_nil_r. reflexivity. }
  rewrite <- Ep in *.
  destruct (@update_level_spec _ _ (fst c) Hn' Ho') as (_ & _ & _ & Hl2).
  rewrite Hl2, Hl'.
  destruct cs as [|c0 cs]; [|rewrite Hl by discriminate; reflexivity].
  unfold baro_decides.
  assert (L : (List.length (pressures (tl ([] ++ [c'])) ++ pressures [c]) < 201)%nat).
  { change (pressures (tl ([] ++ [c']))) with (@nil F). cbn [app]. rewrite Ep. destruct (s_type (st_data (snd c))); cbn; lia. }
  apply Nat.ltb_lt in L. rewrite L. reflexivity.
Qed.

Lemma baro_bounded (cs : list (bcall F)) :
  (List.length (ba_new (baro_state cs)) <= 101)%nat /\ (List.length (ba_old (baro_state cs)) <= 101)%nat.
Proof.
  destruct cs as [|c cs _] using rev_ind; [cbn; lia|].
  destruct (baro_inv cs c) as (_ & Hn & Ho & _). rewrite Hn, Ho, newest_len, older_len. lia.
Qed.

Lemma baro_member (cs : list (bcall F)) : Forall (fun o => In o (map fst cs)) (baro_outputs baro0 cs).
Proof.
  induction cs as [|c cs IH] using rev_ind; [constructor|].
  rewrite baro_outputs_app, map_app. apply Forall_app. split.
  - eapply Forall_impl; [|exact IH]. intros o Ho. apply in_app_iff; auto.
  - constructor; [|constructor]. 
    assert (E := baro_decision cs c). rewrite baro_last in E.
    change (fold_left _ cs baro0) with (baro_state cs). rewrite E.
    destruct cs as [|c0 cs']; [left; reflexivity|].
    set (cs := c0 :: cs') in *.
    assert (Hp : In (last (baro_outputs baro0 cs) "") (map fst cs)).
    { assert (Hne : baro_outputs baro0 cs <> []) by discriminate.
      rewrite Forall_forall in IH. apply IH.
      destruct (exists_last Hne) as (l & x & Ex). rewrite Ex, last_snoc, in_app_iff. cbn; auto. }
    unfold baro_decides. rewrite in_app_iff.
    destruct (Nat.ltb _ 201); [cbn; auto|]. destruct (String.eqb _ _); [cbn; auto|].
    destruct (_ || _); [auto|]. destruct (_ <! _); cbn; auto.
Qed.
End Baro.

(** the height formula over the reals *)
Lemma delta_height_real (p q : R) : (0 < p)%R -> (0 < q)%R ->
  delta_height (Some p : RX) (Some q) =
  Some (- (831 / 100 * 288) / (98 / 10 * (289 / 10000)) * ln (p / q))%R.
Proof.
  intros Hp Hq. unfold delta_height, pascal_to_meters. rewrite !rx_lit, !rx_ofZ by lra.
  rewrite rx_opp, !rx_mul, !rx_div by (try lra; apply Rgt_not_eq; lra).
  assert (E : (100 * p / (100 * q) = p / q)%R) by (field; lra). rewrite E. cbn [flog num_real rlog].
  assert (H0 : (0 < p / q)%R) by (apply Rdiv_lt_0_compat; lra).
  apply Rltb_true in H0. rewrite H0. rewrite rx_mul. do 2 f_equal. field.
Qed.

(** * C24 *)
Section Detect.
Context {F : Type} {NF : Num F} {OF : NumOrd F}.

Lemma amem_existsb V k (l : list (string * V)) : amem k l = existsb (String.eqb k) (map fst l).
Proof.
  unfold amem. induction l as [|[k' v] t IH]; cbn; [reflexivity|].
  destruct (String.eqb k k'); cbn; auto.
Qed.
Lemma level_radio_on (l : level F) ms : level_radio l ms = on_level l ms.
Proof. unfold level_radio, on_level, contains_tx. apply filter_ext. intros m. apply amem_existsb. Qed.

Lemma avg_A_spec (l : level F) (ms : list (radio F)) s :
  (forall m, In m ms -> contains_tx l (r_id m) = true) ->
  fold_left (fun (acc : res F) m => s <- acc ;; t <- get_tx l (r_id m) ;; Ok (s +! pl_A (t_pl t))) ms (Ok s) =
  Ok (fold_left (fun s m => s +! tx_A l m) ms s).
Proof.
  revert s; induction ms as [|m t IH]; intros s H; [reflexivity|].
  cbn [fold_left]. assert (Hm : contains_tx l (r_id m) = true) by (apply H; left; reflexivity).
  unfold contains_tx, amem in Hm. unfold get_tx at 2. 
  assert (E : tx_A l m = match alookup (r_id m) (l_txs l) with Some t => pl_A (t_pl t) | None => f0 end) by reflexivity.
  rewrite E. destruct (alookup (r_id m) (l_txs l)) eqn:El; [|discriminate].
  cbn [bind at_or_throw]. apply IH. intros m' Hm'; apply H; right; exact Hm'.
Qed.

Lemma level_cost_spec up (l : level F) ms :
  level_cost up l (level_radio l ms) (List.length ms) = Ok (tx_score up ms l).
Proof.
  unfold level_cost, tx_score, average_rssi, average_A. rewrite level_radio_on.
  destruct up.
  - rewrite avg_A_spec.
    + reflexivity.
    + intros m Hm. rewrite <- level_radio_on in Hm. unfold level_radio in Hm. apply filter_In in Hm. apply Hm.
  - reflexivity.
Qed.

Lemma on_level_visible c (ms : list (radio F)) l : In l (col_levels c) -> on_level l ms <> [] <-> (In l (col_levels c) /\ visible c ms l).
Proof.
  intros Hl. unfold on_level, visible. split.
  - intros H. split; [exact Hl|]. split; [exact Hl|].
    destruct (filter _ ms) as [|m t] eqn:E; [congruence|].
    assert (Hm : In m (filter (fun m => existsb (String.eqb (r_id m)) (map fst (l_txs l))) ms))
      by (rewrite E; left; reflexivity).
    apply filter_In in Hm. destruct Hm as [Hm He]. exists m. split; [exact Hm|].
    apply existsb_exists in He. destruct He as (k & Hk & Ek). apply String.eqb_eq in Ek. subst k. exact Hk.
  - intros (_ & _ & m & Hm & Hk) E.
    assert (Hi : In m (filter (fun m => existsb (String.eqb (r_id m)) (map fst (l_txs l))) ms)).
    { apply filter_In. split; [exact Hm|]. apply existsb_exists. exists (r_id m). split; [exact Hk|]. apply String.eqb_refl. }
    rewrite E in Hi. destruct Hi.
Qed.

(** A running maximum that starts below everything and keeps the first best *)
Lemma argmax_fold (score : level F -> F) (vis : level F -> bool) (b0 : F) ls :
  let step := fun (acc : string * F) l =>
    if vis l then if snd acc <! score l then (l_id l, score l) else acc else acc in
  let r := fold_left step ls (""%string, b0) in
  (r = (""%string, b0) /\ forall l, In l ls -> vis l = true -> (b0 <! score l) = false) \/
  (exists l, In l ls /\ vis l = true /\ r = (l_id l, score l) /\ (b0 <! score l) = true /\
     forall l', In l' ls -> vis l' = true -> (score l <! score l') = false).
Proof.
  cbv zeta. induction ls as [|l ls IH] using rev_ind.
  - left. split; [reflexivity|]. intros l [].
  - rewrite fold_left_app. cbn [fold_left].
    destruct IH as [(E & H)|(l1 & H1 & H2 & E & H3 & H4)]; rewrite E; cbn [snd].
    + destruct (vis l) eqn:V; [destruct (b0 <! score l) eqn:L|].
      * right. exists l. repeat split; auto. { apply in_app_iff; cbn; auto. }
        intros l' Hl' V'. apply in_app_iff in Hl'. destruct Hl' as [Hl'|[<-|[]]].
        -- destruct (score l <! score l') eqn:L2; [|reflexivity].
           rewrite <- (H l' Hl' V'). symmetry. eapply flt_trans; eassumption.
        -- apply flt_irrefl.
      * left. split; [reflexivity|]. intros l' Hl' V'. apply in_app_iff in Hl'.
        destruct Hl' as [Hl'|[<-|[]]]; auto.
      * left. split; [reflexivity|]. intros l' Hl' V'. apply in_app_iff in Hl'.
        destruct Hl' as [Hl'|[<-|[]]]; auto. congruence.
    + right. destruct (vis l) eqn:V; [destruct (score l1 <! score l) eqn:L|].
      * exists l. repeat split; auto; [apply in_app_iff; cbn; auto|eapply flt_trans; eassumption|].
        intros l' Hl' V'. apply in_app_iff in Hl'. destruct Hl' as [Hl'|[<-|[]]].
        -- destruct (score l <! score l') eqn:L2; [|reflexivity].
           rewrite <- (H4 l' Hl' V'). symmetry. eapply flt_trans; eassumption.
        -- apply flt_irrefl.
      * exists l1. repeat split; auto; [apply in_app_iff; cbn; auto|].
        intros l' Hl' V'. apply in_app_iff in Hl'. destruct Hl' as [Hl'|[<-|[]]]; auto.
      * exists l1. repeat split; auto; [apply in_app_iff; cbn; auto|].
        intros l' Hl' V'. apply in_app_iff in Hl'. destruct Hl' as [Hl'|[<-|[]]]; auto. congruence.
Qed.

Definition vis_b (ms : list (radio F)) (l : level F) : bool :=
  match on_level l ms with [] => false | _ => true end.

Lemma detect_tx_fold up (ms : list (radio F)) ls acc :
  fold_left (fun (acc : res (string * F)) l =>
         '(best, bc) <- acc ;;
         let lms := level_radio l ms in
         match lms with
         | [] => Ok (best, bc)
         | _ =>
             cost <- level_cost up l lms (List.length ms) ;;
             Ok (if bc <! cost then (l_id l, cost) else (best, bc))
         end) ls (Ok acc) =
  Ok (fold_left (fun (acc : string * F) l =>
    if vis_b ms l then if snd acc <! tx_score up ms l then (l_id l, tx_score up ms l) else acc else acc) ls acc).
Proof.
  revert acc; induction ls as [|l t IH]; intros acc; [reflexivity|].
  cbn [fold_left]. rewrite <- IH. f_equal. destruct acc as [best bc]. cbn [bind snd].
  cbv zeta. unfold vis_b. rewrite <- level_radio_on.
  assert (E := level_cost_spec up l ms).
  destruct (level_radio l ms) as [|m t']; [reflexivity|]. rewrite E. cbn [bind].
  destruct (bc <! tx_score up ms l); reflexivity.
Qed.

Lemma vis_b_visible c ms l : In l (col_levels c) -> vis_b ms l = true <-> visible c ms l.
Proof.
  intros Hl. assert (H := on_level_visible c ms l Hl). unfold vis_b.
  destruct (on_level l ms) as [|m t].
  - split; [discriminate|]. intros Hv. exfalso. apply (proj2 H); auto.
  - split; [|reflexivity]. intros _. apply (proj1 H). discriminate.
Qed.

Lemma detect_tx_best up (c : collector F) (ms : list (radio F)) :
  exists r, detect_tx up c ms = Ok r /\
  ((r = "" /\ forall l, visible c ms l -> (fofZ (-1000) <! tx_score up ms l) = false) \/
   (exists l, visible c ms l /\ r = l_id l /\ (fofZ (-1000) <! tx_score up ms l) = true /\
      forall l', visible c ms l' -> (tx_score up ms l <! tx_score up ms l') = false)).
Proof.
  unfold detect_tx. rewrite detect_tx_fold. cbn [bind]. eexists. split; [reflexivity|].
  destruct (argmax_fold (tx_score up ms) (vis_b ms) (fofZ (-1000)) (col_levels c))
    as [(E & H)|(l & H1 & H2 & E & H3 & H4)]; cbv zeta in E; rewrite E; cbn [fst].
  - left. split; [reflexivity|]. intros l Hv. apply H; [apply Hv|].
    apply (vis_b_visible c); [apply Hv|exact Hv].
  - right. exists l. repeat split; auto.
    + apply vis_b_visible with (c := c) in H2; [apply H2|exact H1].
    + intros l' Hv. apply H4; [apply Hv|]. apply (vis_b_visible c); [apply Hv|exact Hv].
Qed.

(** * C25 *)
Lemma mset_lookup_fold (f : level F -> rmap F) ls acc k :
  alookup k (fold_left (fun m l => mset (l_id l) (f l) m) ls acc) =
  match find (fun l => String.eqb k (l_id l)) (rev ls) with
  | Some l => Some (f l)
  | None => alookup k acc
  end.
Proof.
  revert acc; induction ls as [|l t IH] using rev_ind; intros acc; [reflexivity|].
  rewrite fold_left_app. cbn [fold_left]. rewrite rev_app_distr. cbn [rev app find].
  destruct (String.eqb_spec k (l_id l)) as [->|N].
  - apply alookup_mset_same.
  - rewrite alookup_mset_other by exact N. apply IH.
Qed.
Lemma levels_rmaps_lookup (c : collector F) l :
  NoDup (map (@l_id F) (col_levels c)) -> In l (col_levels c) ->
  alookup (l_id l) (levels_rmaps c) = Some (level_rmap l).
Proof.
  intros Hn Hl. unfold levels_rmaps. rewrite mset_lookup_fold.
  destruct (find _ _) as [l'|] eqn:E.
  - apply find_some in E. destruct E as [Hl' E]. apply String.eqb_eq in E.
    apply in_rev in Hl'. 
    assert (l' = l); [|congruence].
    revert Hn Hl Hl' E. generalize (col_levels c) as ls. intros ls Hn. revert l l'.
    induction ls as [|x t IH]; intros l l' Hl Hl' E; [destruct Hl|].
    cbn in Hn. inversion Hn as [|? ? Hx Hn']; subst.
    destruct Hl as [<-|Hl], Hl' as [<-|Hl']; auto.
    + exfalso; apply Hx. rewrite E. apply in_map; exact Hl'.
    + exfalso; apply Hx. rewrite <- E. apply in_map; exact Hl.
  - exfalso. apply find_none with (x := l) in E; [|rewrite <- in_rev; exact Hl].
    rewrite String.eqb_refl in E; discriminate.
Qed.

Lemma filter_flat_map A B (p : B -> bool) (f : A -> list B) l :
  filter p (flat_map f l) = flat_map (fun x => filter p (f x)) l.
Proof. induction l as [|x t IH]; cbn; [reflexivity|]. rewrite filter_app, IH. reflexivity. Qed.
Lemma map_flat_map A B C (g : B -> C) (f : A -> list B) l :
  map g (flat_map f l) = flat_map (fun x => map g (f x)) l.
Proof. induction l as [|x t IH]; cbn; [reflexivity|]. rewrite map_app, IH. reflexivity. Qed.

Lemma equal_range_fp (l : level F) tx :
  map snd (equal_range (level_rmap l) tx) = fingerprints l tx.
Proof.
  unfold equal_range, level_rmap, fingerprints.
  rewrite filter_flat_map, !map_flat_map. apply flat_map_ext. intros rp.
  induction (rp_fp rp) as [|[k s] t IH]; cbn; [reflexivity|].
  destruct (String.eqb k tx); cbn; rewrite IH; reflexivity.
Qed.

Lemma fsum_map A B (g : A -> B) (f : B -> F) l : fsum f (map g l) = fsum (fun x => f (g x)) l.
Proof.
  unfold fsum. generalize f0. induction l as [|x t IH]; intros s; cbn; [reflexivity|]. apply IH.
Qed.

Lemma calc_weight_spec (l : level F) ms : calc_weight ms (level_rmap l) = rm_score ms l.
Proof.
  unfold calc_weight, rm_score.
  set (g := fun m => fsum (fun s => (f1 *! f1) /! (fabs (fabs (r_rssi m) -! fabs (ss_mean s)) +! lit 1 10))
     (fingerprints l (r_id m)) /! fofnat (List.length (fingerprints l (r_id m)))).
  assert (Hm : forall m, meas_weight m (level_rmap l) = if heard l m then Some (g m) else None).
  { intros m. unfold meas_weight, heard, g. rewrite <- (equal_range_fp l (r_id m)).
    destruct (equal_range (level_rmap l) (r_id m)) as [|e t] eqn:E; [reflexivity|].
    cbn [map]. rewrite <- map_cons, map_length, fsum_map. reflexivity. }
  cbv zeta. fold g.
  enough (E : forall s n, fold_left (fun (acc : F * nat) m =>
      match meas_weight m (level_rmap l) with
      | Some x => (fst acc +! x, S (snd acc))
      | None => acc
      end) ms (s, n) =
      (fold_left (fun s m => s +! g m) (filter (heard l) ms) s, (n + List.length (filter (heard l) ms))%nat)).
  { rewrite E. reflexivity. }
  induction ms as [|m t IH]; intros s n; cbn [fold_left filter]; [rewrite Nat.add_0_r; reflexivity|].
  rewrite Hm. destruct (heard l m); cbn [fst snd fold_left List.length]; rewrite IH; [|reflexivity].
  f_equal. lia.
Qed.

Lemma best_rp_spec (l : level F) ms : best_rp_score ms l (calc_weight_best_rp ms (level_rmap l)).
Proof.
  unfold calc_weight_best_rp, best_rp_score.
  induction (rp_weights (level_rmap l) ms true) as [|[k w] t IH] using rev_ind.
  - split; [left; reflexivity|]. intros ? ? [].
  - rewrite fold_left_app. cbn [fold_left snd].
    set (b := fold_left _ t f0) in *. destruct IH as [IH1 IH2].
    destruct (b <! w) eqn:L.
    + split; [right; exists k; apply in_app_iff; cbn; auto|].
      intros rp w' Hi. apply in_app_iff in Hi. destruct Hi as [Hi|[E|[]]].
      * destruct (w <! w') eqn:L2; [|reflexivity]. rewrite <- (IH2 rp w' Hi). symmetry. eapply flt_trans; eassumption.
      * injection E as <- <-. apply flt_irrefl.
    + split.
      * destruct IH1 as [->|(rp & Hi)]; [left; reflexivity|right; exists rp; apply in_app_iff; auto].
      * intros rp w' Hi. apply in_app_iff in Hi. destruct Hi as [Hi|[E|[]]]; [eapply IH2; exact Hi|].
        injection E as <- <-. exact L.
Qed.

(** a positive weight needs evidence *)
Lemma score_evidence ms (l : level F) : (f0 <! rm_score ms l) = true ->
  exists m, In m ms /\ fingerprints l (r_id m) <> [].
Proof.
  intros H. destruct (filter (heard l) ms) as [|m t] eqn:E.
  - unfold rm_score in H. rewrite E in H. cbn [List.length] in H.
    change (fofnat 0) with (@f0 F _) in H. unfold fsum in H; cbn [fold_left] in H.
    rewrite f0_mul_f0 in H. discriminate.
  - exists m. assert (Hm : In m (filter (heard l) ms)) by (rewrite E; left; reflexivity).
    apply filter_In in Hm. destruct Hm as [Hm Hh]. split; [exact Hm|].
    unfold heard in Hh. destruct (fingerprints l (r_id m)); [discriminate|discriminate].
Qed.

Lemma rps_statistics_evidence (rm : rmap F) ms : rps_statistics rm ms <> [] ->
  exists m, In m ms /\ equal_range rm (r_id m) <> [].
Proof.
  unfold rps_statistics. intros H.
  induction ms as [|m t IH] using rev_ind; [exfalso; apply H; reflexivity|].
  rewrite fold_left_app in H. cbn [fold_left] in H.
  destruct (equal_range rm (r_id m)) eqn:E.
  - cbn [fold_left] in H. destruct (IH H) as (m' & Hm' & He). exists m'. split; [apply in_app_iff; auto|exact He].
  - exists m. split; [apply in_app_iff; cbn; auto|]. congruence.
Qed.
Lemma best_evidence ms (l : level F) : (f0 <! calc_weight_best_rp ms (level_rmap l)) = true ->
  exists m, In m ms /\ fingerprints l (r_id m) <> [].
Proof.
  intros H. unfold calc_weight_best_rp in H.
  destruct (rps_statistics_evidence (level_rmap l) ms) as (m & Hm & He).
  - intros E. unfold rp_weights in H. rewrite E in H. cbn in H. rewrite flt_irrefl in H; discriminate.
  - exists m. split; [exact Hm|]. rewrite <- equal_range_fp. intros E. apply map_eq_nil in E. congruence.
Qed.

Definition rm_weight (best : bool) (ms : list (radio F)) (l : level F) : F :=
  if best then calc_weight_best_rp ms (level_rmap l) else calc_weight ms (level_rmap l).
Lemma detect_rm_fold (best : bool) (rmaps : list (string * rmap F)) (ms : list (radio F)) ls acc :
  (forall l, In l ls -> alookup (l_id l) rmaps = Some (level_rmap l)) ->
  fold_left (fun (acc : res (string * F)) l =>
         '(b, bw) <- acc ;;
         rm <- at_or_throw (alookup (l_id l) rmaps) ;;
         let w := if best then calc_weight_best_rp ms rm else calc_weight ms rm in
         Ok (if bw <! w then (l_id l, w) else (b, bw))) ls (Ok acc) =
  Ok (fold_left (fun (acc : string * F) l =>
    if true then if snd acc <! rm_weight best ms l then (l_id l, rm_weight best ms l) else acc else acc) ls acc).
Proof.
  revert acc; induction ls as [|l t IH]; intros acc H; [reflexivity|].
  cbn [fold_left]. rewrite <- IH by (intros l' Hl'; apply H; right; exact Hl').
  f_equal. destruct acc as [b bw]. cbn [bind snd]. rewrite H by (left; reflexivity).
  cbn [at_or_throw bind]. cbv zeta. unfold rm_weight.
  destruct best; destruct (bw <! _); reflexivity.
Qed.

Lemma detect_rm_best (best : bool) (c : collector F) (ms : list (radio F)) :
  NoDup (map (@l_id F) (col_levels c)) ->
  exists r, detect_rm best (levels_rmaps c) c ms = Ok r /\
  exists score : level F -> F,
  (forall l, In l (col_levels c) -> if best then best_rp_score ms l (score l) else score l = rm_score ms l) /\
  ((r = "" /\ forall l, In l (col_levels c) -> (f0 <! score l) = false) \/
   (exists l, In l (col_levels c) /\ r = l_id l /\ (f0 <! score l) = true /\
      (exists m, In m ms /\ fingerprints l (r_id m) <> []) /\
      forall l', In l' (col_levels c) -> (score l <! score l') = false)).
Proof.
  intros Hn. unfold detect_rm. rewrite detect_rm_fold.
  2:{ intros l Hl. apply levels_rmaps_lookup; assumption. }
  cbn [bind]. eexists. split; [reflexivity|]. exists (rm_weight best ms). split.
  - intros l Hl. unfold rm_weight. destruct best; [apply best_rp_spec|apply calc_weight_spec].
  - destruct (argmax_fold (rm_weight best ms) (fun _ => true) f0 (col_levels c))
      as [(E & H)|(l & H1 & H2 & E & H3 & H4)]; cbv zeta in E; rewrite E; cbn [fst].
    + left. split; [reflexivity|]. intros l Hl. apply H; auto.
    + right. exists l. repeat split; auto.
      unfold rm_weight in H3. destruct best; [apply best_evidence; exact H3|].
      rewrite calc_weight_spec in H3. apply score_evidence; exact H3.
Qed.
End Detect.
