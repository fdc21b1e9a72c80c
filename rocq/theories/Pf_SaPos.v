(** Proofs of C65-C68. *)
From Coq Require Import Reals Lra Lia Permutation Sorted.
From Verif Require Import Lib LibR NumOrd NumReal Preproc Spec_Preproc Pf_Preproc Smooth Spec_Smooth Pf_Smooth SaPos Spec_SaPos.
Set Implicit Arguments.
Local Open Scope list_scope.

Section Buffer.
Context {F : Type} {NF : Num F} {SO : Sorter}.
Notation srad := (stamped (radio F)).

Lemma sa_avg_sorted (l : list srad) : StronglySorted (fun a b => id_lt b a = false) l ->
  sa_averages (map (fun g => mkSt (average_run g) (st_ts (fst g))) (runs l)) l.
Proof.
  intros Hs. split.
  - rewrite map_map. cbn [st_data]. apply averages_sorted, Hs.
  - intros o Ho. apply in_map_iff in Ho. destruct Ho as (g & <- & Hg). cbn [st_data st_ts].
    destruct (runs_spec Hs) as (Hc & Hr & _). rewrite Forall_forall in Hr. destruct (Hr g Hg) as ((t & Et) & _).
    exists (fst g). split; [|split; reflexivity]. apply filter_In. split.
    + rewrite <- Hc. apply in_concat. exists (snd g). split; [apply in_map, Hg|rewrite Et; left; reflexivity].
    + unfold average_run, radio_set. cbn. apply String.eqb_refl.
Qed.
Lemma sa_averages_perm (out w w' : list srad) : Permutation w w' -> sa_averages out w -> sa_averages out w'.
Proof.
  intros Hp (H1 & H2). split; [eapply averages_perm; eassumption|].
  intros o Ho. destruct (H2 o Ho) as (m & Hm & E). exists m. split; [|exact E].
  eapply Permutation_in; [|exact Hm]. apply filter_perm, Hp.
Qed.
Lemma sa_extract_avg (c : sacfg) (b : sabuf F) : (sc_shift c <= sb_cur b - sb_last b)%Z ->
  sa_averages (snd (sa_extract c b)) (sb_ms b).
Proof.
  intros H. unfold sa_extract. destruct (Z.ltb_spec (sb_cur b - sb_last b) (sc_shift c)); [lia|]. cbn [snd].
  eapply sa_averages_perm; [apply Permutation_sym, sort_id_perm|]. apply sa_avg_sorted, ssort_sorted, id_lt_swo.
Qed.

Record sarel (b : sabuf F) (w : sawin F) : Prop := {
  sl_ms : Permutation (sb_ms b) (sw_in w);
  sl_time : match sw_time w with
            | None => sb_last b = (-1)%Z /\ sb_cur b = (-1)%Z /\ sw_in w = []
            | Some (l, k) => sb_last b = l /\ sb_cur b = k /\ (0 <= k)%Z
            end }.
Lemma sarel0 : sarel sabuf0 (@sawin0 F).
Proof. constructor; cbn; auto. Qed.
Lemma sarel_add c b w m : sarel b w -> (0 <= st_ts m)%Z -> sarel (sa_add b m) (sw_step c w (SaAdd m)).
Proof.
  intros [Hp Ht] H0. unfold sa_add, sa_add_all. cbn [fold_left sw_step]. destruct (sw_time w) as [[l k]|].
  - destruct Ht as (<- & <- & Hk). destruct (Z.eqb_spec (sb_cur b) (-1)); [lia|]. constructor; cbn [sa_store sb_ms sw_in sb_last sb_cur sw_time].
    + destruct (_ <? _)%Z; [apply Permutation_app_tail|]; exact Hp.
    + repeat split; lia.
  - destruct Ht as (E1 & E2 & E3). rewrite E2. change (-1 =? -1)%Z with true. cbv iota. constructor; cbn [sa_store sb_ms sw_in sb_last sb_cur sw_time].
    + rewrite Z.ltb_irrefl. rewrite E3 in Hp. exact Hp.
    + repeat split; lia.
Qed.
Lemma sarel_extract c b w : sarel b w -> let r := sa_extract c b in
  sarel (fst r) (sw_step c w (SaExtract)) /\ (if sw_due c w then sa_averages (snd r) (sw_in w) else snd r = []).
Proof.
  intros [Hp Ht] r. unfold r, sw_due. cbn [sw_step]. destruct (sw_time w) as [[l k]|] eqn:E.
  - destruct Ht as (<- & <- & Hk). unfold sw_due. rewrite E. destruct (Z.leb_spec (sc_shift c) (sb_cur b - sb_last b)) as [L|L].
    + split; [|eapply sa_averages_perm; [exact Hp|apply sa_extract_avg; exact L]].
      unfold sa_extract. destruct (Z.ltb_spec (sb_cur b - sb_last b) (sc_shift c)); [lia|]. cbn [fst].
      constructor; cbn [sb_ms sb_last sb_cur sw_in sw_time]; [|auto].
      destruct (_ =? 0)%Z; [constructor|]. rewrite drop_old_filter by (apply ssort_sorted, ts_lt_swo).
      apply filter_perm. etransitivity; [apply Permutation_sym, sort_ts_perm|]. etransitivity; [apply Permutation_sym, sort_id_perm|exact Hp].
    + unfold sa_extract. destruct (Z.ltb_spec (sb_cur b - sb_last b) (sc_shift c)); [|lia]. cbn [fst snd]. split; [|reflexivity].
      constructor; [exact Hp|rewrite E; auto].
  - destruct Ht as (E1 & E2 & E3). unfold sa_extract. rewrite E1, E2. rewrite E3 in Hp. apply Permutation_sym, Permutation_nil in Hp.
    destruct (_ <? _)%Z; cbn [fst snd].
    + split; [|reflexivity]. constructor; [rewrite Hp, E3; constructor|rewrite E; auto].
    + assert (Es : forall (lt : srad -> srad -> bool), strict_weak_on lt [] -> ssort lt [] = []).
      { intros lt H. apply Permutation_nil, (@ssort_perm SO _ lt _ H). }
      rewrite Hp, !Es by (try apply id_lt_swo; apply ts_lt_swo). cbn. split; [|reflexivity].
      constructor; cbn; [destruct (_ =? 0)%Z; rewrite E3; constructor|rewrite E; auto].
Qed.
Lemma sarefine c ops : forall b w, sarel b w -> sa_timed ops ->
  sa_outs_ok c w ops (snd (sa_run c b ops)) /\ sarel (fst (sa_run c b ops)) (fold_left (sw_step c) ops w).
Proof.
  induction ops as [|o ops IH]; intros b w Hr Ht; [split; [exact I|exact Hr]|].
  unfold sa_timed in *. cbn [sa_added flat_map] in Ht. apply Forall_app in Ht. destruct Ht as [Ho Ht].
  cbn [sa_run fold_left]. destruct o as [m|]; cbn [sa_step].
  - inversion Ho as [|? ? Hm _]; subst. assert (Hr' := @sarel_add c b w m Hr Hm). specialize (IH _ _ Hr' Ht).
    destruct (sa_run c (sa_add b m) ops) as [b2 outs]. cbn [fst snd sa_outs_ok] in *. tauto.
  - destruct (sarel_extract c Hr) as [Hr' Ho']. destruct (sa_extract c b) as [b1 out]. cbn [fst snd] in *. specialize (IH _ _ Hr' Ht).
    destruct (sa_run c b1 ops) as [b2 outs]. cbn [fst snd sa_outs_ok] in *. tauto.
Qed.

(** what the window holds *)
Definition sw_good (c : sacfg) (ops : list (saop F)) (w : sawin F) : Prop :=
  match sw_time w with
  | None => sw_in w = [] /\ sa_added ops = []
  | Some (l, k) => (l <= k)%Z /\ sa_added ops <> [] /\
      Forall (fun m => In m (tl (sa_added ops)) /\ (l - sc_keep c <= st_ts m <= k)%Z) (sw_in w)
  end.
Lemma sw_good_run c ops : (0 <= sc_keep c)%Z -> (0 <= sc_shift c)%Z -> sw_good c ops (fold_left (sw_step c) ops (@sawin0 F)).
Proof.
  intros Hk Hs. induction ops as [|o ops IH] using rev_ind; [split; reflexivity|].
  rewrite fold_left_app. cbn [fold_left]. set (w := fold_left (sw_step c) ops (@sawin0 F)) in *.
  unfold sw_good in *. unfold sa_added in *. rewrite flat_map_app. cbn [flat_map]. rewrite app_nil_r.
  set (ad := flat_map _ ops) in *. destruct o as [m|]; cbn [sw_step].
  - destruct (sw_time w) as [[l k]|] eqn:E.
    + cbn [sw_time sw_in]. destruct IH as (IH1 & IH3 & IH2). split; [lia|].
      split; [intros X; apply app_eq_nil in X; destruct X; discriminate|].
      assert (A : Forall (fun m0 => In m0 (tl (ad ++ [m])) /\ (l - sc_keep c <= st_ts m0 <= Z.max k (st_ts m))%Z) (sw_in w)).
      { eapply Forall_impl; [|exact IH2]. intros q [Q1 Q2]. split; [|lia]. destruct ad; [destruct Q1|]. cbn [tl app] in *. apply in_or_app; auto. }
      destruct (Z.ltb_spec l (st_ts m)); [|exact A]. apply Forall_app. split; [exact A|]. constructor; [|constructor]. split; [|lia].
      destruct ad as [|q ad']; [congruence|]. cbn. apply in_or_app; right; left; reflexivity.
    + cbn [sw_time sw_in]. split; [lia|]. split; [intros X; apply app_eq_nil in X; destruct X; discriminate|constructor].
  - rewrite app_nil_r. destruct (sw_time w) as [[l k]|] eqn:E; [|rewrite E; exact IH].
    destruct IH as (IH1 & IH3 & IH2). destruct (sw_due c w); [|rewrite E; auto].
    cbn [sw_time sw_in]. split; [lia|]. split; [exact IH3|]. destruct (_ =? 0)%Z; [constructor|].
    apply Forall_forall. intros q Hq. apply filter_In in Hq. destruct Hq as [Q1 Q2]. rewrite Forall_forall in IH2.
    destruct (IH2 q Q1) as [Q3 Q4]. split; [exact Q3|]. apply Z.leb_le in Q2. lia.
Qed.
Theorem sa_window c ops : sa_timed ops -> sa_outs_ok c (@sawin0 F) ops (snd (sa_run c sabuf0 ops)).
Proof. intros H. apply sarefine; [exact sarel0|exact H]. Qed.
Theorem sa_recent c ops : (0 <= sc_keep c)%Z -> (0 <= sc_shift c)%Z -> sa_timed ops ->
  let b := fst (sa_run c sabuf0 ops) in
  Forall (fun m => In m (tl (sa_added ops)) /\ (sb_last b - sc_keep c <= st_ts m <= sb_cur b)%Z) (sb_ms b).
Proof.
  intros Hk Hs Ht b. destruct (@sarefine c ops _ _ sarel0 Ht) as [_ [Hp Hw]]. fold b in Hp, Hw.
  assert (G := @sw_good_run c ops Hk Hs). unfold sw_good in G. set (w := fold_left _ ops _) in *.
  destruct (sw_time w) as [[l k]|].
  - destruct Hw as (<- & <- & _). destruct G as (_ & _ & G). apply Forall_forall. intros m Hm. rewrite Forall_forall in G. apply G.
    eapply Permutation_in; eassumption.
  - destruct G as [G _]. rewrite G in Hp. apply Permutation_sym, Permutation_nil in Hp. rewrite Hp. constructor.
Qed.

(** the first measurement counts only through its time *)
Lemma sa_first (c : sacfg) (m m' : srad) ops : st_ts m = st_ts m' ->
  sa_run c sabuf0 (SaAdd m :: ops) = sa_run c sabuf0 (SaAdd m' :: ops).
Proof.
  intros E. cbn [sa_run sa_step]. replace (sa_add sabuf0 m) with (sa_add sabuf0 m'); [reflexivity|].
  unfold sa_add, sa_add_all, sa_store. cbn. rewrite E, Z.ltb_irrefl. reflexivity.
Qed.
Lemma sa_run_app c ops1 : forall (b : sabuf F) ops2,
  sa_run c b (ops1 ++ ops2) = let '(b1, o1) := sa_run c b ops1 in let '(b2, o2) := sa_run c b1 ops2 in (b2, o1 ++ o2).
Proof.
  induction ops1 as [|o ops1 IH]; intros b ops2; cbn [app sa_run].
  - destruct (sa_run c b ops2); reflexivity.
  - destruct (sa_step c b o) as [b1 out]. rewrite IH. destruct (sa_run c b1 ops1) as [b2 o1]. destruct (sa_run c b2 ops2). reflexivity.
Qed.
(** a measurement no newer than the last packet changes nothing *)
Lemma sa_late (c : sacfg) (m : srad) ops1 ops2 : sa_timed ops1 -> sa_added ops1 <> [] ->
  (st_ts m <= sb_last (fst (sa_run c sabuf0 ops1)))%Z -> (0 <= sc_shift c)%Z ->
  snd (sa_run c sabuf0 (ops1 ++ SaAdd m :: ops2)) =
  snd (sa_run c sabuf0 ops1) ++ [] :: snd (sa_run c (fst (sa_run c sabuf0 ops1)) ops2).
Proof.
  intros Ht Hn Hm Hs. rewrite sa_run_app. destruct (@sarefine c ops1 _ _ sarel0 Ht) as [_ [_ Hw]].
  assert (G : (sb_last (fst (sa_run c sabuf0 ops1)) <= sb_cur (fst (sa_run c sabuf0 ops1)) /\ 0 <= sb_cur (fst (sa_run c sabuf0 ops1)))%Z).
  { assert (G := @sw_good_run (mkSacfg 0 (sc_shift c)) ops1). 
    assert (Ew : forall ops w w', sw_time w = sw_time w' -> sw_time (fold_left (sw_step (mkSacfg 0 (sc_shift c))) ops w) = sw_time (fold_left (sw_step c) ops w' : sawin F)).
    { clear. induction ops as [|o ops IH]; intros w w' E; [exact E|]. cbn [fold_left]. apply IH. destruct o; cbn [sw_step]; unfold sw_due; rewrite E; destruct (sw_time w') as [[l k]|] eqn:E'; try reflexivity; try (rewrite ?E, ?E'; reflexivity).
      cbn [sc_shift]. destruct (_ <=? _)%Z; [reflexivity|]. rewrite E, E'; reflexivity. }
    specialize (G ltac:(cbn; lia) Hs). unfold sw_good in G. rewrite (Ew ops1 (@sawin0 F) (@sawin0 F) eq_refl) in G.
    destruct (sw_time (fold_left (sw_step c) ops1 (@sawin0 F))) as [[l k]|]; [|destruct G; congruence].
    destruct Hw as (-> & -> & H0). split; [apply G|exact H0]. }
  destruct (sa_run c sabuf0 ops1) as [b o1]. cbn [fst snd] in *. cbn [sa_run sa_step].
  assert (E : sa_add b m = b).
  { unfold sa_add, sa_add_all. destruct (Z.eqb_spec (sb_cur b) (-1)); [lia|]. cbn [fold_left]. unfold sa_store.
    destruct (Z.ltb_spec (sb_last b) (st_ts m)); [lia|]. rewrite Z.max_r by lia. destruct b; reflexivity. }
  rewrite E. destruct (sa_run c b ops2); reflexivity.
Qed.
(** packets are at least the window shift apart *)
Lemma sa_spacing_from c ops : (0 <= sc_shift c)%Z -> forall b : sabuf F, (0 <= sb_cur b)%Z -> sa_timed ops ->
  let ts := sa_hand_times (sb_cur b) ops (snd (sa_run c b ops)) in
  Sorted (fun x y => (sc_shift c <= y - x)%Z) ts /\ (forall x, In x ts -> (sb_last b + sc_shift c <= x)%Z).
Proof.
  intros Hs. induction ops as [|o ops IH]; intros b Hb Ht; [split; [constructor|intros ? []]|].
  unfold sa_timed in *. cbn [sa_added flat_map] in Ht. apply Forall_app in Ht. destruct Ht as [Ho Ht].
  cbn [sa_run]. destruct o as [m|]; cbn [sa_step].
  - inversion Ho as [|? ? Hm _]; subst.
    assert (E : sa_add b m = sa_store b m) by (unfold sa_add, sa_add_all; destruct (Z.eqb_spec (sb_cur b) (-1)); [lia|reflexivity]).
    rewrite E. specialize (IH (sa_store b m)). destruct (sa_run c (sa_store b m) ops) as [b2 outs]. cbn [snd sa_hand_times] in *.
    cbn [sa_store sb_cur sb_last] in IH. rewrite Z.max_comm. apply IH; [lia|exact Ht].
  - unfold sa_extract. destruct (Z.ltb_spec (sb_cur b - sb_last b) (sc_shift c)) as [L|L].
    + specialize (IH b Hb Ht). destruct (sa_run c b ops) as [b2 outs]. exact IH.
    + match goal with |- context [sa_run c ?B ops] => set (b1 := B) end.
      assert (Hb1 : (0 <= sb_cur b1)%Z) by exact Hb. specialize (IH b1 Hb1 Ht). change (sb_cur b1) with (sb_cur b) in IH. change (sb_last b1) with (sb_cur b) in IH.
      destruct (sa_run c b1 ops) as [b2 outs]. cbn [snd sa_hand_times] in *. destruct IH as [I1 I2].
      match goal with |- context [match ?o with [] => _ | _ => _ end] => destruct o end.
      * split; [exact I1|]. intros x Hx. specialize (I2 x Hx). lia.
      * split.
        -- constructor; [exact I1|]. destruct (sa_hand_times _ _ _) as [|y ys]; constructor. specialize (I2 y (or_introl eq_refl)). lia.
        -- intros x [<-|Hx]; [lia|]. specialize (I2 x Hx). lia.
Qed.
Theorem sa_spacing c m ops : (0 <= sc_shift c)%Z -> (0 <= st_ts m)%Z -> sa_timed ops ->
  let ts := sa_hand_times (-1) (SaAdd m :: ops) (snd (sa_run c (@sabuf0 F) (SaAdd m :: ops))) in
  Sorted (fun x y => (sc_shift c <= y - x)%Z) ts /\ (forall x, In x ts -> (st_ts m + sc_shift c <= x)%Z).
Proof.
  intros Hs Hm Ht. cbn [sa_run sa_step]. assert (H := @sa_spacing_from c ops Hs (sa_add sabuf0 m)).
  assert (E : sa_add sabuf0 m = mkSabuf (F := F) [] (st_ts m) (st_ts m)).
  { unfold sa_add, sa_add_all, sa_store. cbn. rewrite Z.ltb_irrefl, Z.max_id. reflexivity. }
  rewrite E in *. cbn [sb_cur sb_last] in H. specialize (H Hm Ht).
  destruct (sa_run c _ ops) as [b2 outs]. cbn [snd sa_hand_times] in *. rewrite Z.max_r by lia. exact H.
Qed.
End Buffer.

Section Packets.
Context {F : Type} {NF : Num F} {SO : Sorter}.
Notation srad := (stamped (radio F)).
Lemma sa_closest (c : sapcfg) (p p' : sapre F) out : sa_extract_radio c p = Ok (p', out) ->
  let avg := snd (sa_extract (sp_buf c) (sr_buf p)) in
  sr_buf p' = fst (sa_extract (sp_buf c) (sr_buf p)) /\
  exists dropped, Permutation avg (out ++ dropped) /\ List.length out = Nat.min 5 (List.length avg) /\
  StronglySorted (fun a b => (r_rssi (st_data a) <! r_rssi (st_data b)) = false) out /\
  (forall a b, In a out -> In b dropped -> (r_rssi (st_data a) <! r_rssi (st_data b)) = false).
Proof.
  intros H. cbv zeta. unfold sa_extract_radio in H. destruct (sa_extract (sp_buf c) (sr_buf p)) as [b avg]. cbn [fst snd].
  inv_bind H. rename a into asc. cbv zeta in Hb. generalize dependent Hb. generalize 5%nat. intros N Hb. injection Hb as <- <-. split; [reflexivity|].
  apply sort_res_ok in Ha. destruct Ha as (_ & Hp & Hs).
  assert (Hp' : Permutation avg (rev asc)).
  { etransitivity; [apply Permutation_rev|]. etransitivity; [exact Hp|apply Permutation_rev]. }
  apply ssorted_rev in Hs. rewrite (Permutation_length Hp'). set (d := rev asc) in *.
  destruct (Nat.ltb_spec N (List.length d)) as [L|L].
  - exists (skipn N d). rewrite firstn_skipn. rewrite <- (firstn_skipn N d) in Hs. apply ssorted_app in Hs.
    split; [exact Hp'|]. split; [rewrite firstn_length; lia|]. split; [exact (proj1 Hs)|exact (proj2 Hs)].
  - exists []. rewrite app_nil_r. split; [exact Hp'|]. split; [lia|]. split; [exact Hs|intros ? ? _ []].
Qed.
Lemma sa_supported_spec (c : sapcfg) (m : srad) :
  sa_supported c (r_type (st_data m)) && sa_rssi_valid (r_rssi (st_data m)) = true <-> sa_accepts c m.
Proof.
  unfold sa_accepts, sa_rssi_valid, sa_supported. rewrite !andb_true_iff.
  destruct (r_type (st_data m)); intuition discriminate.
Qed.
Lemma sa_add_in (b : sabuf F) (m x : srad) : In x (sb_ms (sa_add b m)) -> In x (sb_ms b) \/ x = m.
Proof.
  unfold sa_add, sa_add_all. cbn [fold_left sa_store sb_ms].
  assert (E : sb_ms (if (sb_cur b =? -1)%Z then mkSabuf (sb_ms b) (st_ts m) (st_ts m) else b) = sb_ms b) by (destruct (_ =? _)%Z; reflexivity).
  rewrite E. destruct (_ <? _)%Z; [|auto]. intros H. apply in_app_or in H. destruct H as [H|[H|[]]]; auto.
Qed.
Lemma sa_extract_in c (b : sabuf F) x : In x (sb_ms (fst (sa_extract c b))) -> In x (sb_ms b).
Proof.
  unfold sa_extract. destruct (_ <? _)%Z; [auto|]. cbn [fst sb_ms]. destruct (_ =? _)%Z; [intros []|].
  rewrite drop_old_filter by (apply ssort_sorted, ts_lt_swo). intros H. apply filter_In in H. destruct H as [H _].
  eapply Permutation_in; [|exact H]. etransitivity; [apply Permutation_sym, sort_ts_perm|apply Permutation_sym, sort_id_perm].
Qed.
Lemma sa_averages_nodup (out w : list srad) : sa_averages out w -> NoDup (map (fun o => r_id (st_data o)) out).
Proof.
  intros ((H & _) & _). rewrite map_map in H. set (f := fun o : srad => r_id (st_data o)) in *.
  induction (map f out) as [|x l IH]; [constructor|]. inversion H as [|? ? H1 H2]; subst. constructor; [|apply IH, H1].
  intros Hx. rewrite Forall_forall in H2. specialize (H2 x Hx). cbn in H2. rewrite str_ltb_irrefl in H2. discriminate.
Qed.
End Packets.

Section PacketsReal.
Context {SO : Sorter}.
Local Open Scope R_scope.
Notation srad := (stamped (radio RX)).
Lemma mean_strict (l : list R) lo hi : l <> [] -> (forall x, In x l -> lo < x < hi) -> lo < rsum l / INR (List.length l) < hi.
Proof.
  intros Hn H. assert (Hp : 0 < INR (List.length l)) by (apply lt_0_INR; destruct l; [congruence|cbn; lia]).
  assert (E : forall a, rsum (map (fun x => x - a) l) = rsum l - a * INR (List.length l) /\ rsum (map (fun x => a - x) l) = a * INR (List.length l) - rsum l).
  { intros a. clear. induction l as [|y l IH]; [cbn [map List.length]; rewrite rsum_nil; change (INR 0) with 0; lra|]. cbn [map List.length]. rewrite !rsum_cons, S_INR. destruct IH as [-> ->]. lra. }
  assert (A : 0 < rsum (map (fun x => x - lo) l)).
  { apply rsum_pos; [destruct l; [congruence|discriminate]|]. intros x Hx. apply in_map_iff in Hx. destruct Hx as (y & <- & Hy). specialize (H y Hy). lra. }
  assert (B : 0 < rsum (map (fun x => hi - x) l)).
  { apply rsum_pos; [destruct l; [congruence|discriminate]|]. intros x Hx. apply in_map_iff in Hx. destruct Hx as (y & <- & Hy). specialize (H y Hy). lra. }
  rewrite (proj1 (E lo)) in A. rewrite (proj2 (E hi)) in B.
  split; apply Rmult_lt_reg_r with (INR (List.length l)); auto; unfold Rdiv; rewrite Rmult_assoc, Rinv_l by lra; lra.
Qed.
Lemma accepts_real c (m : srad) : sa_accepts c m -> exists v, r_rssi (st_data m) = Some v /\ -100 < v < 0.
Proof.
  intros (_ & H1 & H2). destruct (r_rssi (st_data m)) as [v|]; [|discriminate]. exists v. split; [reflexivity|].
  rewrite rx_ofZ, rx_ltb in H1. rewrite rx_f0, rx_ltb in H2. apply Rltb_true in H1. apply Rltb_true in H2. lra.
Qed.
Definition from_ms (c : sapcfg) (ms : list srad) (b : sabuf RX) : Prop := forall x, In x (sb_ms b) -> In x ms /\ sa_accepts c x.
Lemma sa_entry c ms (b : sabuf RX) o : from_ms c ms b -> In o (snd (sa_extract (sp_buf c) b)) ->
  exists m v, In m ms /\ sa_accepts c m /\ r_id (st_data o) = r_id (st_data m) /\
    r_type (st_data o) = r_type (st_data m) /\ st_ts o = st_ts m /\ r_rssi (st_data o) = Some v /\ -100 < v < 0.
Proof.
  intros Hf Ho. destruct (Z.le_gt_cases (sc_shift (sp_buf c)) (sb_cur b - sb_last b)) as [L|L].
  - assert (A := sa_extract_avg (sp_buf c) b L). destruct A as [(A1 & A2 & A3) A4].
    destruct (A4 o Ho) as (m & Hm & E1 & E2). destruct (A3 (st_data o)) as (M & _); [apply (in_map (@st_data (radio RX))), Ho|].
    set (g := of_tx (r_id (st_data o)) (sb_ms b)) in *.
    assert (Hg : forall x, In x g -> In x ms /\ sa_accepts c x) by (intros x Hx; apply filter_In in Hx; apply Hf, Hx).
    assert (Hn : g <> []) by (intros X; rewrite X in Hm; destruct Hm).
    destruct (Hg m Hm) as [Q1 Q2]. exists m.
    assert (Hd : forall x, In x g -> defined (r_rssi (st_data x))).
    { intros x Hx. destruct (accepts_real (proj2 (Hg x Hx))) as (v & -> & _). exists v; reflexivity. }
    rewrite (@mean_of_real (fun m => r_rssi (st_data m)) g _ Hd Hn M). eexists. split; [exact Q1|]. split; [exact Q2|].
    rewrite E2. do 2 (split; [reflexivity|]). split; [exact E1|]. split; [reflexivity|].
    rewrite <- (map_length (fun m => rval (r_rssi (st_data m))) g). apply mean_strict.
    + destruct g; [congruence|discriminate].
    + intros x Hx. apply in_map_iff in Hx. destruct Hx as (y & <- & Hy). destruct (accepts_real (proj2 (Hg y Hy))) as (v & -> & B). exact B.
  - unfold sa_extract in Ho. destruct (Z.ltb_spec (sb_cur b - sb_last b) (sc_shift (sp_buf c))); [destruct Ho|lia].
Qed.
Lemma srssi_swo (l : list srad) : (forall o, In o l -> exists v, r_rssi (st_data o) = Some v) -> strict_weak_on srssi_lt l.
Proof.
  intros H. unfold strict_weak_on, srssi_lt. split; [|split].
  - intros a Ha. destruct (H a Ha) as (v & ->). rewrite rx_ltb. apply Rltb_false. lra.
  - intros a b d Ha Hb Hd. destruct (H a Ha) as (u & ->), (H b Hb) as (v & ->), (H d Hd) as (w & ->). rewrite !rx_ltb, !Rltb_true. lra.
  - intros a b d Ha Hb Hd. destruct (H a Ha) as (u & ->), (H b Hb) as (v & ->), (H d Hd) as (w & ->). rewrite !rx_ltb, !Rltb_false. lra.
Qed.
Lemma sa_extract_radio_real c ms (p : sapre RX) : from_ms c ms (sr_buf p) -> exists p' out,
  sa_extract_radio c p = Ok (p', out) /\ from_ms c ms (sr_buf p') /\ (out = [] \/ packet_ok c ms out).
Proof.
  intros Hf. assert (He := fun o => @sa_entry c ms (sr_buf p) o Hf).
  assert (X : exists p' out, sa_extract_radio c p = Ok (p', out)).
  { unfold sa_extract_radio. destruct (sa_extract (sp_buf c) (sr_buf p)) as [b avg]. cbn [snd] in He. unfold sort_res.
    assert (E : swo_b srssi_lt (rev avg) = true).
    { apply swo_b_spec, srssi_swo. intros o Ho. destruct (He o) as (m & v & _ & _ & _ & _ & _ & Hv & _); [apply in_rev, Ho|eauto]. }
    rewrite E. cbn. eauto. }
  destruct X as (p' & out & E). exists p', out. split; [exact E|]. destruct (sa_closest _ _ E) as (Eb & dropped & Hp & Hl & Hs & _).
  split; [intros x Hx; rewrite Eb in Hx; apply Hf, (sa_extract_in _ _ _ Hx)|].
  destruct out as [|o0 out0] eqn:Eo; [left; reflexivity|right]. rewrite <- Eo in *.
  assert (Hin : forall o, In o out -> In o (snd (sa_extract (sp_buf c) (sr_buf p)))).
  { intros o Ho. eapply Permutation_in; [apply Permutation_sym, Hp|]. apply in_or_app; auto. }
  split; [rewrite Eo; discriminate|]. split; [rewrite Hl; lia|]. split; [|split].
  - assert (L : (sc_shift (sp_buf c) <= sb_cur (sr_buf p) - sb_last (sr_buf p))%Z).
    { destruct (Z.le_gt_cases (sc_shift (sp_buf c)) (sb_cur (sr_buf p) - sb_last (sr_buf p))) as [L|L]; [exact L|].
      specialize (Hin o0). rewrite Eo in Hin. specialize (Hin (or_introl eq_refl)). unfold sa_extract in Hin.
      destruct (Z.ltb_spec (sb_cur (sr_buf p) - sb_last (sr_buf p)) (sc_shift (sp_buf c))); [destruct Hin|lia]. }
    assert (N := sa_averages_nodup (sa_extract_avg (sp_buf c) (sr_buf p) L)).
    assert (Hp2 := Permutation_map (fun o => r_id (st_data o)) Hp). rewrite map_app in Hp2.
    apply (Permutation_NoDup Hp2) in N. clear -N. induction (map _ out) as [|x l IH]; [constructor|]. inversion N as [|? ? N1 N2]; subst.
    constructor; [intros X; apply N1, in_or_app; auto|apply IH, N2].
  - assert (Hr : forall o, In o out -> exists v, r_rssi (st_data o) = Some v) by (intros o Ho; destruct (He o (Hin o Ho)) as (m & v & Q); exists v; apply Q).
    clear -Hs Hr. induction Hs as [|a l Hs IH Hf]; [constructor|]. constructor; [apply IH; intros; apply Hr; right; assumption|].
    apply Forall_forall. intros b Hb. rewrite Forall_forall in Hf. specialize (Hf b Hb).
    destruct (Hr a (or_introl eq_refl)) as (u & Eu), (Hr b (or_intror Hb)) as (v & Ev). exists u, v. rewrite Eu, Ev, rx_ltb, Rltb_false in Hf. auto.
  - apply Forall_forall. intros o Ho. apply He, Hin, Ho.
Qed.
Lemma sa_packets_real_from c ms l : forall p : sapre RX, from_ms c ms (sr_buf p) -> incl l ms ->
  exists pk, sa_packets_from c p l = Ok pk /\ Forall (packet_ok c ms) pk.
Proof.
  induction l as [|m l IH]; intros p Hf Hi; [exists []; split; [reflexivity|constructor]|]. cbn [sa_packets_from].
  assert (Hf1 : from_ms c ms (sr_buf (sa_update c p m))).
  { intros x Hx. unfold sa_update in Hx. cbn [sr_buf] in Hx. destruct (sa_supported _ _ && _) eqn:E; [|apply Hf, Hx].
    apply sa_supported_spec in E. apply sa_add_in in Hx. destruct Hx as [Hx| ->]; [apply Hf, Hx|]. split; [apply Hi; left; reflexivity|exact E]. }
  destruct (@sa_extract_radio_real c ms _ Hf1) as (p' & out & E & Hf2 & Ho). rewrite E. cbn [bind].
  destruct (IH p' Hf2) as (pk & Ek & Hk); [intros x Hx; apply Hi; right; exact Hx|]. rewrite Ek. cbn [bind].
  destruct out as [|o out]; [exists pk; auto|]. exists ((o :: out) :: pk). split; [reflexivity|]. constructor; [|exact Hk]. destruct Ho; [discriminate|assumption].
Qed.
Theorem sa_packets_real c (ms : list srad) : exists pk, sa_packets c ms = Ok pk /\ Forall (packet_ok c ms) pk.
Proof. apply sa_packets_real_from; [intros x []|intros x Hx; exact Hx]. Qed.
End PacketsReal.

Section Estimator.
Context {F : Type} {NF : Num F}.
Notation srad := (stamped (radio F)).
Lemma last_in A (t : list A) m : In (last t m) (m :: t).
Proof.
  destruct t as [|b t]; [left; reflexivity|right]. rewrite (app_removelast_last m (l := b :: t)) at 2 by discriminate.
  apply in_or_app; right; left; reflexivity.
Qed.
Lemma registered_fold (txs : list (string * (F * F))) id p :
  alookup id (fold_left (fun m t => mset (fst t) (snd t) m) txs []) = Some p <-> registered txs id p.
Proof.
  revert p. induction txs as [|[k v] txs IH] using rev_ind; intros p.
  - cbn. split; [discriminate|]. intros (l1 & l2 & E & _). destruct l1; discriminate.
  - rewrite fold_left_app. cbn [fold_left fst snd]. destruct (string_dec id k) as [->|N].
    + rewrite alookup_mset_same. split.
      * intros H. injection H as <-. exists txs, []. split; [reflexivity|intros []].
      * intros (l1 & l2 & E & Hn). destruct (rev l2) as [|[k2 v2] t] eqn:Er.
        -- apply (f_equal (@rev _)) in Er. rewrite rev_involutive in Er. cbn in Er. subst l2.
           apply app_inj_tail in E. destruct E as [_ E]. injection E as ->. reflexivity.
        -- apply (f_equal (@rev _)) in Er. rewrite rev_involutive in Er. cbn in Er. subst l2.
           rewrite app_comm_cons, app_assoc in E. apply app_inj_tail in E. destruct E as [_ E]. injection E as -> ->.
           exfalso. apply Hn. rewrite map_app. apply in_or_app; right; left; reflexivity.
    + rewrite alookup_mset_other by exact N. rewrite IH. split.
      * intros (l1 & l2 & -> & Hn). exists l1, (l2 ++ [(k, v)]). split; [rewrite <- app_assoc; reflexivity|].
        rewrite map_app. intros H. apply in_app_or in H. destruct H as [H|[H|[]]]; [auto|cbn in H; congruence].
      * intros (l1 & l2 & E & Hn). destruct (rev l2) as [|[k2 v2] t] eqn:Er.
        -- apply (f_equal (@rev _)) in Er. rewrite rev_involutive in Er. cbn in Er. subst l2.
           apply app_inj_tail in E. destruct E as [_ E]. injection E as -> _. congruence.
        -- apply (f_equal (@rev _)) in Er. rewrite rev_involutive in Er. cbn in Er. subst l2.
           rewrite app_comm_cons, app_assoc in E. apply app_inj_tail in E. destruct E as [-> E].
           exists l1, (rev t). split; [reflexivity|]. intros H. apply Hn. rewrite map_app. apply in_or_app; auto.
Qed.
Lemma sa_calculate_tx (e : saest F) ms : es_tx (fst (sa_calculate e ms)) = es_tx e.
Proof.
  unfold sa_calculate. destruct (sa_registered e ms) as [|m t]; [reflexivity|].
  destruct (alookup _ _) as [[x y]|]; [|reflexivity]. destruct (sa_smooth _ _). reflexivity.
Qed.
Lemma sa_reach_tx txs (e : saest F) : sa_reach txs e -> forall id p, alookup id (es_tx e) = Some p <-> registered txs id p.
Proof. induction 1 as [|e ms H IH]; intros id p; [apply registered_fold|]. rewrite sa_calculate_tx. apply IH. Qed.

Lemma sa_none txs (e : saest F) ms : sa_reach txs e ->
  (forall m p, In m ms -> ~ registered txs (r_id (st_data m)) p) -> sa_calculate e ms = (e, sapos0).
Proof.
  intros Hr H. unfold sa_calculate. destruct (sa_registered e ms) as [|m t] eqn:E; [reflexivity|]. exfalso.
  assert (Hm : In m (sa_registered e ms)) by (rewrite E; left; reflexivity). apply filter_In in Hm. destruct Hm as [Hm Ha].
  unfold amem in Ha. destruct (alookup _ _) as [p|] eqn:El; [|discriminate]. apply (sa_reach_tx Hr) in El. exact (H m p Hm El).
Qed.
Theorem sa_nearest txs (e : saest F) ms : sa_reach txs e ->
  strict_weak_on srssi_lt ms ->
  (exists m p, In m ms /\ registered txs (r_id (st_data m)) p) ->
  exists near x y pre post lst,
    In near ms /\ registered txs (r_id (st_data near)) (x, y) /\
    (forall m p, In m ms -> registered txs (r_id (st_data m)) p -> (r_rssi (st_data near) <! r_rssi (st_data m)) = false) /\
    ms = pre ++ lst :: post /\ (exists p, registered txs (r_id (st_data lst)) p) /\
    (forall m p, In m post -> ~ registered txs (r_id (st_data m)) p) /\
    let est := mkSapos x y (fsqrt (fexp ((fofZ (-82) -! r_rssi (st_data near)) /! fofZ 3)) +! f1) false (st_ts lst) in
    sa_calculate e ms = (mkSaest (fst (sa_smooth (es_sm e) est)) (es_tx e), snd (sa_smooth (es_sm e) est)).
Proof.
  intros Hr (H1 & H2 & H3) (m0 & p0 & Hm0 & Hp0). unfold sa_calculate.
  assert (Hreg : forall m, In m (sa_registered e ms) <-> In m ms /\ exists p, registered txs (r_id (st_data m)) p).
  { intros m. unfold sa_registered. rewrite filter_In. unfold amem. split; intros [A B]; split; auto.
    - destruct (alookup _ _) as [p|] eqn:El; [|discriminate]. exists p. apply (sa_reach_tx Hr), El.
    - destruct B as (p & B). apply (sa_reach_tx Hr) in B. rewrite B. reflexivity. }
  destruct (sa_registered e ms) as [|m t] eqn:E.
  { exfalso. apply (proj2 (Hreg m0)). eauto. }
  set (near := max_elem_from srssi_lt m t).
  assert (Hs : strict_weak_on srssi_lt (m :: t)).
  { unfold strict_weak_on, srssi_lt. split; [|split].
    - intros a Ha. apply H1. apply Hreg in Ha. apply Ha.
    - intros a b c Ha Hb Hc. apply Hreg in Ha, Hb, Hc. apply H2; tauto.
    - intros a b c Ha Hb Hc. apply Hreg in Ha, Hb, Hc. apply H3; tauto. }
  assert (Hn : In near (m :: t)) by apply max_elem_in. assert (Hmax := max_elem_max Hs). fold near in Hmax.
  apply Hreg in Hn. destruct Hn as [Hn ([x y] & Hp)]. assert (El := proj2 (sa_reach_tx Hr _ _) Hp). rewrite El.
  assert (Hlast : exists pre post, ms = pre ++ last t m :: post /\ (forall q, In q post -> amem (r_id (st_data q)) (es_tx e) = false)).
  { clear -E. unfold sa_registered in E. revert m t E. induction ms as [|a ms IH] using rev_ind; intros m t E; [discriminate|].
    rewrite filter_app in E. cbn [filter] in E. destruct (amem (r_id (st_data a)) (es_tx e)) eqn:Ea.
    - exists ms, []. split; [|intros q []]. f_equal. f_equal. destruct (filter _ ms) as [|m1 t1].
      + cbn in E. injection E as <- <-. reflexivity.
      + cbn in E. injection E as <- <-. rewrite last_last. reflexivity.
    - rewrite app_nil_r in E. destruct (IH m t E) as (pre & post & -> & Hq). exists pre, (post ++ [a]). split; [rewrite <- app_assoc; reflexivity|].
      intros q Hq'. apply in_app_or in Hq'. destruct Hq' as [Hq'|[<-|[]]]; auto. }
  destruct Hlast as (pre & post & Ems & Hpost).
  exists near, x, y, pre, post, (last t m). split; [exact Hn|]. split; [exact Hp|]. split; [|split; [exact Ems|split; [|split]]].
  - intros q p Hq Hqp. apply (Hmax q), Hreg. eauto.
  - assert (In (last t m) (m :: t)) by apply last_in.
    apply Hreg in H. apply H.
  - intros q p Hq Hqp. apply (sa_reach_tx Hr) in Hqp. specialize (Hpost q Hq). unfold amem in Hpost. rewrite Hqp in Hpost. discriminate.
  - cbv zeta. destruct (sa_smooth _ _) as [sm r]. reflexivity.
Qed.

(** the stored position is empty only before the first estimate *)
Definition est_good (e : saest F) : Prop :=
  sm_pos (es_sm e) = sapos0 /\ sm_called (es_sm e) = false \/
  sa_empty (sm_pos (es_sm e)) = false /\ sm_called (es_sm e) = true.
Lemma smooth_good (m : sasm F) p : sa_empty p = false -> (0 <= sa_ts p)%Z ->
  (sm_pos m = sapos0 /\ sm_called m = false \/ sa_empty (sm_pos m) = false /\ sm_called m = true) ->
  sa_empty (sm_pos (fst (sa_smooth m p))) = false /\ sm_called (fst (sa_smooth m p)) = true /\ sa_empty (snd (sa_smooth m p)) = false.
Proof.
  intros He Ht Hg. unfold sa_smooth. destruct (Z.ltb_spec (sa_ts (sm_pos m)) (sa_ts p)) as [L|L].
  - destruct (_ || _) eqn:Eb; cbn; auto. apply orb_false_iff in Eb. destruct Eb as [Eb _]. apply negb_false_iff in Eb. auto.
  - cbn. destruct Hg as [[Hg _]|[Hg1 Hg2]]; [rewrite Hg in L; cbn in L; lia|auto].
Qed.
Lemma sa_good txs (e : saest F) ms : (forall m, In m ms -> (0 <= st_ts m)%Z) -> sa_reach txs e -> est_good e ->
  est_good (fst (sa_calculate e ms)) /\
  (sa_empty (snd (sa_calculate e ms)) = true <-> forall m p, In m ms -> ~ registered txs (r_id (st_data m)) p).
Proof.
  intros Ht Hr Hg. destruct (sa_registered e ms) as [|m t] eqn:E.
  - assert (N : forall m p, In m ms -> ~ registered txs (r_id (st_data m)) p).
    { intros m p Hm Hp. apply (sa_reach_tx Hr) in Hp. assert (In m (sa_registered e ms)) by (apply filter_In; unfold amem; rewrite Hp; auto).
      rewrite E in H. destruct H. }
    unfold sa_calculate. rewrite E. cbn. tauto.
  - assert (Hm : In m (sa_registered e ms)) by (rewrite E; left; reflexivity). apply filter_In in Hm. destruct Hm as [Hm Ha].
    unfold amem in Ha. destruct (alookup (r_id (st_data m)) _) as [p|] eqn:El; [|discriminate]. apply (sa_reach_tx Hr) in El.
    unfold sa_calculate. rewrite E.
    assert (Hn : In (max_elem_from srssi_lt m t) (sa_registered e ms)) by (rewrite E; apply max_elem_in). apply filter_In in Hn. destruct Hn as [_ Hn].
    unfold amem in Hn. destruct (alookup (r_id (st_data (max_elem_from srssi_lt m t))) (es_tx e)) as [[x y]|]; [|discriminate].
    match goal with |- context [sa_smooth ?a ?b] => assert (G := @smooth_good a b eq_refl); destruct (sa_smooth a b) as [sm r] end.
    cbn [fst snd es_sm] in *. destruct G as (G1 & G2 & G3).
    + cbn [sa_ts]. apply Ht. assert (In (last t m) (sa_registered e ms)) by (rewrite E; apply last_in).
      apply filter_In in H. apply H.
    + exact Hg.
    + split; [right; auto|]. rewrite G3. split; [discriminate|]. intros N. exfalso. exact (N m p Hm El).
Qed.
End Estimator.

Lemma sa_empty_iff {F} {NF : Num F} (txs : list (string * (F * F))) pks ms :
  (forall q m, In q (ms :: pks) -> In m q -> (0 <= st_ts m)%Z) ->
  let e := fold_left (fun e q => fst (sa_calculate e q)) pks (saest0 txs) in
  sa_empty (snd (sa_calculate e ms)) = true <-> forall m p, In m ms -> ~ registered txs (r_id (st_data m)) p.
Proof.
  intros H e. assert (G : sa_reach txs e /\ est_good e).
  { unfold e. clear e. assert (K : forall q m, In q pks -> In m q -> (0 <= st_ts m)%Z) by (intros q m Hq; apply H; right; exact Hq). clear H.
    induction pks as [|q pks IH] using rev_ind; [split; [constructor|left; split; reflexivity]|]. rewrite fold_left_app. cbn [fold_left].
    destruct IH as [R G]; [intros q' m Hq; apply K, in_or_app; auto|]. split; [constructor; exact R|].
    apply (@sa_good _ _ txs); auto. intros m Hm. apply (K q m); [apply in_or_app; right; left; reflexivity|exact Hm]. }
  apply (@sa_good _ _ txs); [|apply G|apply G]. intros m Hm. apply (H ms m (or_introl eq_refl) Hm).
Qed.
Lemma sa_precision (v : R) : exists d, (fsqrt (fexp ((fofZ (-82) -! Some v) /! fofZ 3)) +! f1 : RX) = Some d /\ (1 < d)%R /\
  d = (sqrt (exp ((-82 - v) / 3)) + 1)%R.
Proof.
  assert (E : (fexp ((fofZ (-82) -! Some v) /! fofZ 3) : RX) = Some (exp ((-82 - v) / 3))).
  { rewrite !rx_ofZ, rx_sub, rx_div by lra. reflexivity. }
  assert (P := exp_pos ((-82 - v) / 3)). rewrite E, rx_sqrt by lra. exists (sqrt (exp ((-82 - v) / 3)) + 1)%R. split; [reflexivity|]. split; [|reflexivity].
  assert (Q := sqrt_lt_R0 _ P). lra.
Qed.
