(** Proofs about settings files: level settings, the whole file, creating a client. *)
From Verif Require Export Pf_Json Spec_Client.
Set Implicit Arguments.
Local Open Scope string_scope.
Local Open Scope list_scope.

Section Pf.
Context {F : Type} {NF : Num F}.

Lemma sorted_before V (m1 m2 : list (string * V)) k v k' v' : keys_sorted (m1 ++ (k, v) :: m2) ->
  In (k', v') (m1 ++ (k, v) :: m2) -> String.ltb k' k = true -> In (k', v') m1.
Proof.
  unfold keys_sorted. intros Hs Hi Hlt. induction m1 as [|[k1 v1] m1 IH].
  - cbn [app map] in *. apply StronglySorted_inv in Hs. destruct Hs as [_ Hf]. rewrite Forall_forall in Hf.
    exfalso. destruct Hi as [E|Hi].
    + injection E as -> ->. cbn [fst] in Hlt. rewrite str_ltb_irrefl in Hlt. discriminate.
    + cbn [fst] in Hf. specialize (Hf k' (in_map fst _ _ Hi)). apply str_ltb_antisym in Hf. congruence.
  - cbn [app map] in *. apply StronglySorted_inv in Hs. destruct Hs as [Hs _].
    destruct Hi as [E|Hi]; [left; exact E|right; apply IH; assumption].
Qed.
Lemma sorted_prefix V (m1 m2 : list (string * V)) k v k' v' : keys_sorted (m1 ++ (k, v) :: m2) ->
  In (k', v') m1 -> String.ltb k' k = true.
Proof.
  unfold keys_sorted. intros Hs Hi. induction m1 as [|[k1 v1] m1 IH]; [destruct Hi|].
  cbn [app map] in *. apply StronglySorted_inv in Hs. destruct Hs as [Hs Hf].
  destruct Hi as [E|Hi]; [|apply IH; assumption].
  injection E as -> ->. rewrite Forall_forall in Hf. cbn [fst] in Hf. apply Hf. rewrite map_app. apply in_or_app. right. left. reflexivity.
Qed.
Lemma keys_sorted_app_l V (m1 m2 : list (string * V)) : keys_sorted (m1 ++ m2) -> keys_sorted m1.
Proof.
  unfold keys_sorted. induction m1 as [|e m1 IH]; cbn [app map]; intros H; [constructor|].
  apply StronglySorted_inv in H. destruct H as [H Hf]. constructor; [apply IH; exact H|].
  rewrite Forall_forall in *. intros x Hx. apply Hf. rewrite map_app. apply in_or_app. left; exact Hx.
Qed.

Lemma keys_sorted_remove V (m1 m2 : list (string * V)) e : keys_sorted (m1 ++ e :: m2) -> keys_sorted (m1 ++ m2).
Proof.
  unfold keys_sorted. induction m1 as [|e1 m1 IH]; cbn [app map]; intros H; apply StronglySorted_inv in H; destruct H as [H Hf]; [exact H|].
  constructor; [apply IH; exact H|]. rewrite Forall_forall in *. intros x Hx. apply Hf. rewrite map_app in *.
  apply in_app_or in Hx. apply in_or_app. destruct Hx as [Hx|Hx]; [left; exact Hx|right; right; exact Hx].
Qed.

Lemma level_alookup k mem t : alookup k level_keys = Some (mem, t) ->
  t = TDbl /\ (k = "A" /\ mem = "normalModeA" \/ k = "B" /\ mem = "normalModeB").
Proof.
  intros H. apply alookup_in in H. unfold level_keys in H. cbn [In] in H.
  destruct H as [H|[H|[]]]; injection H as <- <- <-; auto.
Qed.

Lemma level_good (m : list (string * json F)) : num_at "A" m -> num_at "B" m -> Forall (good level_keys) m.
Proof.
  intros HA HB. apply Forall_forall. intros [k v] Hi mem t E. cbn [fst snd] in *.
  destruct (level_alookup _ E) as [-> [[-> _]|[-> _]]]; apply get_as_ok; cbn [vt in_range]; auto.
Qed.

Lemma level_found key mem d (m : list (string * json F)) st : alookup key level_keys = Some (mem, TDbl) ->
  keys_sorted m -> Forall (good level_keys) m -> read_list level_keys m [] = Ok st -> level_value m key d (sd st mem d).
Proof.
  intros Ek Hs Hg H. unfold level_value, sd.
  destruct (in_dec string_dec key (map fst m)) as [Hi|Hn].
  - left. apply in_map_iff in Hi. destruct Hi as ([k v] & E & Hi). cbn [fst] in E. subst k. exists v. split; [exact Hi|].
    destruct (@read_list_found F NF level_keys key mem TDbl v m level_mem_inj (keys_sorted_nodup Hs) Hg Ek Hi [] st H) as (x & Hx & ->).
    cbn [get_as] in Hx. destruct v; cbn in Hx; try discriminate; injection Hx as <-; constructor.
  - right. split; [exact Hn|]. rewrite (@read_list_other F NF level_keys mem m) with (2 := H); [reflexivity|].
    intros k' t' E'. rewrite (level_mem_inj _ _ E' Ek). exact Hn.
Qed.

Lemma level_value_prefix key d x (m1 m2 : list (string * json F)) k v : keys_sorted (m1 ++ (k, v) :: m2) ->
  String.ltb key k = true -> level_value m1 key d x -> level_value (m1 ++ (k, v) :: m2) key d x.
Proof.
  intros Hs Hlt [(y & Hy & Hm)|[Hn ->]].
  - left. exists y. split; [apply in_or_app; left; exact Hy|exact Hm].
  - right. split; [|reflexivity]. intros Hi. apply Hn. apply in_map_iff in Hi. destruct Hi as ([k' v'] & E & Hi).
    cbn [fst] in E. subst k'. apply in_map_iff. exists (key, v'). split; [reflexivity|].
    eapply sorted_before; eassumption.
Qed.

Lemma num_dec (v : json F) : accepts Number v \/ get_as TDbl v = Throw.
Proof. destruct v; cbn; eauto. Qed.

Lemma num_at_dec key (m : list (string * json F)) :
  num_at key m \/ exists m1 v m2, m = m1 ++ (key, v) :: m2 /\ ~ accepts Number v.
Proof.
  induction m as [|[k v] m IH]; [left; intros v []|].
  destruct IH as [IH|(m1 & v' & m2 & -> & H)].
  - destruct (string_dec k key) as [->|N].
    + destruct (num_dec v) as [H|H].
      * left. intros v' [E|Hi]; [injection E as <-; exact H|apply IH; exact Hi].
      * right. exists [], v, m. split; [reflexivity|]. apply get_as_throw in H. exact H.
    + left. intros v' [E|Hi]; [congruence|apply IH; exact Hi].
  - right. exists ((k, v) :: m1), v', m2. auto.
Qed.

Lemma get_level_spec (m : list (string * json F)) : keys_sorted m -> exists a b, get_level (JObj m) = Ok (a, b) /\
  (num_at "A" m -> level_value m "A" (fofZ (-82)) a /\
     (num_at "B" m -> level_value m "B" (fofZ 3) b) /\ (~ num_at "B" m -> b = fofZ 3)) /\
  (~ num_at "A" m -> a = fofZ (-82) /\ b = fofZ 3).
Proof.
  intros Hs. unfold get_level. rewrite (read_struct_obj level_keys Hs).
  destruct (num_at_dec "A" m) as [HA|(m1 & v & m2 & -> & Hv)].
  - destruct (num_at_dec "B" m) as [HB|(m1 & v & m2 & -> & Hv)].
    + pose proof (level_good HA HB) as Hg. destruct (read_list_good Hg []) as [st Hst]. rewrite Hst. cbn [bind].
      unfold level_of. do 2 eexists. split; [reflexivity|]. split.
      * intros _. split; [|split].
        -- eapply level_found; try eassumption; reflexivity.
        -- intros _. eapply level_found; try eassumption; reflexivity.
        -- intros N. destruct (N HB).
      * intros N. destruct (N HA).
    + assert (Hg : Forall (good level_keys) m1).
      { apply level_good.
        - intros x Hx. apply HA. apply in_or_app. left; exact Hx.
        - intros x Hx. exfalso. pose proof (@sorted_prefix _ _ _ _ _ _ _ Hs Hx) as L. rewrite str_ltb_irrefl in L. discriminate. }
      rewrite (@read_list_app F NF level_keys m1 _ Hg). destruct (read_list_good Hg []) as [st Hst]. rewrite Hst. cbn [bind read_list].
      replace (alookup "B" level_keys) with (Some ("normalModeB", TDbl)) by reflexivity.
      destruct (num_dec v) as [N|Ht]; [destruct (Hv N)|]. rewrite Ht. cbn [bind]. unfold level_of.
      assert (HnB : alookup "normalModeB" st = None).
      { rewrite (@read_list_other F NF level_keys "normalModeB" m1) with (2 := Hst); [reflexivity|].
        intros k t E Hi. destruct (level_alookup _ E) as [_ [[-> E']|[-> _]]]; [discriminate|].
        apply in_map_iff in Hi. destruct Hi as ([k' v'] & E' & Hi). cbn [fst] in E'. subst k'.
        pose proof (@sorted_prefix _ _ _ _ _ _ _ Hs Hi) as L. rewrite str_ltb_irrefl in L. discriminate. }
      do 2 eexists. split; [reflexivity|]. split.
      * intros _. split; [|split].
        -- apply level_value_prefix; [exact Hs|reflexivity|].
           eapply level_found; [reflexivity| |exact Hg|exact Hst]. eapply keys_sorted_app_l. exact Hs.
        -- intros HB. exfalso. apply Hv. apply HB. apply in_or_app. right. left. reflexivity.
        -- intros _. unfold sd. rewrite HnB. reflexivity.
      * intros N. destruct (N HA).
  - assert (Hlt : forall k x, In (k, x) m1 -> String.ltb k "A" = true).
    { intros k x Hx. exact (@sorted_prefix _ _ _ _ _ _ _ Hs Hx). }
    assert (Hn : forall k t, In k (map fst m1) -> alookup k level_keys = Some t -> False).
    { intros k [mem t] Hi E. apply in_map_iff in Hi. destruct Hi as ([k' x] & E' & Hi). cbn [fst] in E'. subst k'.
      specialize (Hlt _ _ Hi). destruct (level_alookup _ E) as [_ [[-> _]|[-> _]]]; discriminate. }
    assert (Hg : Forall (good level_keys) m1).
    { apply Forall_forall. intros [k x] Hi mem t E. exfalso. eapply Hn; [|exact E]. apply in_map_iff. exists (k, x). auto. }
    rewrite (@read_list_app F NF level_keys m1 _ Hg). destruct (read_list_good Hg []) as [st Hst]. rewrite Hst. cbn [bind read_list].
    replace (alookup "A" level_keys) with (Some ("normalModeA", TDbl)) by reflexivity.
    destruct (num_dec v) as [N|Ht]; [destruct (Hv N)|]. rewrite Ht. cbn [bind]. unfold level_of.
    assert (Hno : forall mem, alookup mem st = None).
    { intros mem. rewrite (@read_list_other F NF level_keys mem m1) with (2 := Hst); [reflexivity|].
      intros k t E Hi. eapply Hn; eassumption. }
    do 2 eexists. split; [reflexivity|]. split.
    + intros HA. exfalso. apply Hv. apply HA. apply in_or_app. right. left. reflexivity.
    + intros _. unfold sd. rewrite !Hno. auto.
Qed.

(** ** The whole file *)
Lemma jat_obj k (m : list (string * json F)) v : keys_sorted m -> In (k, v) m -> jat k (JObj m) = Ok v.
Proof. intros Hs Hi. unfold jat. rewrite (@in_alookup_nodup _ k v m (keys_sorted_nodup Hs) Hi). reflexivity. Qed.
Lemma jat_missing k (m : list (string * json F)) : ~ In k (map fst m) -> jat k (JObj m) = Throw.
Proof. intros H. unfold jat. apply alookup_none in H. rewrite H. reflexivity. Qed.

Lemma read_levels (es : list (json F)) xs : Forall2 level_entry es xs ->
  forall m0, exists lv, fold_left read_level es (Ok m0) = Ok lv /\
    forall id, (exists l1 m l2 ab, xs = l1 ++ (id, m) :: l2 /\ ~ In id (map fst l2) /\
                  get_level (JObj m) = Ok ab /\ alookup id lv = Some ab) \/
               (~ In id (map fst xs) /\ alookup id lv = alookup id m0).
Proof.
  induction 1 as [|e [id0 mm] es xs He Hes IH]; intros m0.
  - exists m0. split; [reflexivity|]. intros id. right. split; [intros []|reflexivity].
  - destruct He as (m & rest & -> & Hs & Hl & Hst & Hsm). cbn [fst snd] in *.
    destruct (get_level_spec Hsm) as (a & b & Hab & _).
    assert (R : read_level (Ok m0) (JObj m) = Ok (mset id0 (a, b) m0)).
    { unfold read_level. cbn [bind]. rewrite (@jat_obj _ _ _ Hs Hl). cbn [bind get_str]. rewrite (@jat_obj _ _ _ Hs Hst). cbn [bind jidx0_const].
      rewrite Hab. reflexivity. }
    cbn [fold_left]. rewrite R. destruct (IH (mset id0 (a, b) m0)) as (lv & Hlv & Hid). exists lv. split; [exact Hlv|].
    intros id. destruct (Hid id) as [(l1 & m' & l2 & ab & -> & Hn & Hg & Hk)|[Hn Hk]].
    + left. exists ((id0, mm) :: l1), m', l2, ab. auto.
    + destruct (string_dec id id0) as [->|N].
      * left. exists [], mm, xs, (a, b). rewrite alookup_mset_same in Hk. auto.
      * right. rewrite alookup_mset_other in Hk by exact N. split; [|exact Hk].
        cbn [map fst]. intros [E|Hi]; [congruence|exact (Hn Hi)].
Qed.

(** ** Creating a client *)
Context {SO : Sorter}.

Lemma zone_tables_acc (s : settings F) ls : forall m,
  (Forall (fun l => alookup (l_id l) (s_levels s) <> None) ls ->
    exists zt, fold_left (fun acc (l : level F) =>
      m <- acc ;; ab <- at_or_throw (alookup (l_id l) (s_levels s)) ;; Ok (mset (l_id l) ab m)) ls (Ok m) = Ok zt) /\
  ((exists l : level F, In l ls /\ alookup (l_id l) (s_levels s) = None) ->
    fold_left (fun acc (l : level F) =>
      m <- acc ;; ab <- at_or_throw (alookup (l_id l) (s_levels s)) ;; Ok (mset (l_id l) ab m)) ls (Ok m) = Throw).
Proof.
  induction ls as [|l ls IH]; intros m.
  - split; [intros _; exists m; reflexivity|intros (l & [] & _)].
  - cbn [fold_left bind]. split.
    + intros H. inversion H as [|? ? H1 H2]; subst. destruct (alookup (l_id l) (s_levels s)) as [ab|]; [|destruct (H1 eq_refl)].
      cbn [at_or_throw bind]. apply IH. exact H2.
    + intros (l0 & [<-|Hi] & H0).
      * rewrite H0. cbn [at_or_throw bind].
        assert (T : forall ls', fold_left (fun acc (l : level F) =>
          m <- acc ;; ab <- at_or_throw (alookup (l_id l) (s_levels s)) ;; Ok (mset (l_id l) ab m)) ls' Throw = @Throw (list (string * (F * F)))).
        { induction ls' as [|l' ls' IHl]; [reflexivity|exact IHl]. }
        apply T.
      * destruct (alookup (l_id l) (s_levels s)) as [ab|]; cbn [at_or_throw bind].
        -- apply IH. eauto.
        -- assert (T : forall ls', fold_left (fun acc (l : level F) =>
          m <- acc ;; ab <- at_or_throw (alookup (l_id l) (s_levels s)) ;; Ok (mset (l_id l) ab m)) ls' Throw = @Throw (list (string * (F * F)))).
        { induction ls' as [|l' ls' IHl]; [reflexivity|exact IHl]. }
        apply T.
Qed.

Lemma levels_dec (s : settings F) (ls : list (level F)) :
  Forall (fun l => alookup (l_id l) (s_levels s) <> None) ls \/
  exists l, In l ls /\ alookup (l_id l) (s_levels s) = None.
Proof.
  induction ls as [|l ls IH]; [left; constructor|].
  destruct (alookup (l_id l) (s_levels s)) as [ab|] eqn:E.
  - destruct IH as [IH|(l' & H & H')]; [left; constructor; [congruence|exact IH]|right; exists l'; split; [right; exact H|exact H']].
  - right. exists l. split; [left; reflexivity|exact E].
Qed.
End Pf.
