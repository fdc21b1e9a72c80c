(** Proofs about reading settings files. *)
From Coq Require Import Ascii DecimalString.
From Verif Require Export Spec_Json Lib.
Set Implicit Arguments.
Local Open Scope string_scope.
Local Open Scope list_scope.

Section Pf.
Context {F : Type} {NF : Num F}.

(** reading pairs instead of keys *)
Fixpoint read_list (tbl : list (string * (string * ctype))) (m : list (string * json F)) (s : store F) :
    res (store F) :=
  match m with
  | [] => Ok s
  | (k, v) :: rest =>
      match alookup k tbl with
      | None => read_list tbl rest s
      | Some (mem, t) =>
          match get_as t v with
          | Ok x => read_list tbl rest ((mem, x) :: s)
          | Throw => Ok s
          | UB => UB
          | OutOfFuel => OutOfFuel
          end
      end
  end.

Lemma read_keys_list tbl (m0 m : list (string * json F)) : NoDup (map fst m0) -> (forall e, In e m -> In e m0) ->
  forall s, read_keys tbl (JObj m0) (map fst m) s = read_list tbl m s.
Proof.
  intros Hn. induction m as [|[k v] t IH]; intros Hi s; [reflexivity|].
  cbn [map fst read_keys read_list].
  assert (E : jat k (JObj m0) = Ok v).
  { unfold jat. rewrite (@in_alookup_nodup _ k v m0 Hn (Hi _ (or_introl eq_refl))). reflexivity. }
  rewrite E. cbn [bind].
  assert (Ht : forall e, In e t -> In e m0) by (intros e He; apply Hi; right; exact He).
  destruct (alookup k tbl) as [[mem ty]|]; [|apply IH; exact Ht].
  destruct (get_as ty v); try reflexivity. apply IH; exact Ht.
Qed.

Lemma read_struct_obj tbl (m : list (string * json F)) : keys_sorted m ->
  read_struct tbl (JObj m) = read_list tbl m [].
Proof.
  intros H. apply read_keys_list; [apply keys_sorted_nodup; exact H|auto].
Qed.

(** an entry read without error *)
Definition good (tbl : list (string * (string * ctype))) (e : string * json F) : Prop :=
  forall mem t, alookup (fst e) tbl = Some (mem, t) -> exists x, get_as t (snd e) = Ok x.

Lemma read_list_good tbl (m : list (string * json F)) : Forall (good tbl) m ->
  forall s, exists s', read_list tbl m s = Ok s'.
Proof.
  induction 1 as [|[k v] m Hg Hm IH]; intros s; [exists s; reflexivity|]. cbn [read_list].
  destruct (alookup k tbl) as [[mem t]|] eqn:E; [|apply IH].
  destruct (Hg _ _ E) as [x Hx]. cbn [snd] in Hx. rewrite Hx. apply IH.
Qed.

Lemma read_list_app tbl (m1 m2 : list (string * json F)) : Forall (good tbl) m1 ->
  forall s, read_list tbl (m1 ++ m2) s = (s' <- read_list tbl m1 s ;; read_list tbl m2 s').
Proof.
  induction 1 as [|[k v] m Hg Hm IH]; intros s; [reflexivity|]. cbn [read_list app].
  destruct (alookup k tbl) as [[mem t]|] eqn:E; [|apply IH].
  destruct (Hg _ _ E) as [x Hx]. cbn [snd] in Hx. rewrite Hx. apply IH.
Qed.

Lemma read_list_skip tbl k v (m1 m2 : list (string * json F)) : alookup k tbl = None ->
  forall s, read_list tbl (m1 ++ (k, v) :: m2) s = read_list tbl (m1 ++ m2) s.
Proof.
  intros E. induction m1 as [|[k' v'] m IH]; intros s; cbn [read_list app].
  - rewrite E. reflexivity.
  - destruct (alookup k' tbl) as [[mem t]|]; [|apply IH]. destruct (get_as t v'); auto.
Qed.

(** what the store holds *)
Lemma read_list_other tbl mem (m : list (string * json F)) :
  (forall k t, alookup k tbl = Some (mem, t) -> ~ In k (map fst m)) ->
  forall s s', read_list tbl m s = Ok s' -> alookup mem s' = alookup mem s.
Proof.
  induction m as [|[k v] m IH]; intros Hn s s' H; [injection H as <-; reflexivity|]. cbn [read_list] in H.
  assert (Hn' : forall k0 t, alookup k0 tbl = Some (mem, t) -> ~ In k0 (map fst m)).
  { intros k0 t E Hi. apply (Hn k0 t E). right; exact Hi. }
  destruct (alookup k tbl) as [[mem' t]|] eqn:E; [|exact (IH Hn' _ _ H)].
  destruct (get_as t v) as [x| | |]; try discriminate.
  - rewrite (IH Hn' _ _ H). cbn [alookup]. destruct (String.eqb mem mem') eqn:Em; [|reflexivity].
    apply String.eqb_eq in Em. subst mem'. exfalso. apply (Hn _ _ E). left; reflexivity.
  - injection H as <-. reflexivity.
Qed.

Definition mem_inj (tbl : list (string * (string * ctype))) : Prop :=
  forall k k' mem t t', alookup k tbl = Some (mem, t) -> alookup k' tbl = Some (mem, t') -> k = k'.

Lemma read_list_found tbl k mem t v (m : list (string * json F)) : mem_inj tbl -> NoDup (map fst m) ->
  Forall (good tbl) m -> alookup k tbl = Some (mem, t) -> In (k, v) m ->
  forall s s', read_list tbl m s = Ok s' -> exists x, get_as t v = Ok x /\ alookup mem s' = Some x.
Proof.
  intros Hi Hn Hg Ek Hin. apply in_split in Hin. destruct Hin as (m1 & m2 & ->). intros s s' H.
  apply Forall_app in Hg. destruct Hg as [Hg1 Hg2]. rewrite (@read_list_app tbl m1 _ Hg1) in H.
  destruct (read_list tbl m1 s) as [s1| | |]; try discriminate. cbn [bind read_list] in H. rewrite Ek in H.
  destruct (get_as t v) as [x| | |] eqn:Ev.
  - exists x. split; [reflexivity|].
    rewrite (@read_list_other tbl mem m2) with (2 := H).
    + cbn [alookup]. rewrite String.eqb_refl. reflexivity.
    + intros k' t' E' Hk'. assert (k = k') by (eapply Hi; eassumption). subst k'.
      rewrite map_app in Hn. cbn [map fst] in Hn. apply NoDup_remove_2 in Hn. apply Hn. apply in_or_app. right; exact Hk'.
  - exfalso. inversion Hg2 as [|a b Hga Hgb]; subst. destruct (Hga _ _ Ek) as [x Hx]. cbn [snd] in Hx. congruence.
  - discriminate.
  - discriminate.
Qed.

(** the types of the specification *)
Definition vt (t : ctype) : vtype :=
  match t with TAlgo | TMtype | TSigs => Name | TBool => Boolean | TDbl => Number | TU32 => Count | TI64 => Seconds end.

Lemma key_types_common : key_types = map (fun e => (fst e, vt (snd (snd e)))) common_keys.
Proof. reflexivity. Qed.

Fixpoint nodupb (l : list string) : bool :=
  match l with [] => true | x :: t => negb (existsb (String.eqb x) t) && nodupb t end.
Lemma nodupb_NoDup l : nodupb l = true -> NoDup l.
Proof.
  induction l as [|x t IH]; cbn; intros H; constructor; apply andb_prop in H; destruct H as [H1 H2].
  - intros Hi. apply Bool.negb_true_iff in H1. apply Bool.not_true_iff_false in H1. apply H1.
    apply existsb_exists. exists x. split; [exact Hi|apply String.eqb_refl].
  - apply IH; exact H2.
Qed.
Lemma common_keys_nodup : NoDup (map fst common_keys).
Proof. apply nodupb_NoDup. vm_compute. reflexivity. Qed.

Lemma nodup_mem_inj (tbl : list (string * (string * ctype))) :
  NoDup (map (fun e => fst (snd e)) tbl) -> mem_inj tbl.
Proof.
  intros Hn k k' mem t t' H H'. apply alookup_in in H. apply alookup_in in H'.
  induction tbl as [|[k0 [m0 t0]] tbl IH]; [destruct H|]. cbn in Hn. inversion Hn as [|a b Ha Hb]; subst.
  destruct H as [H|H], H' as [H'|H'].
  - congruence.
  - exfalso. injection H as -> -> ->. apply Ha. apply in_map_iff. exists (k', (mem, t')). auto.
  - exfalso. injection H' as -> -> ->. apply Ha. apply in_map_iff. exists (k, (mem, t)). auto.
  - exact (IH Hb H H').
Qed.
Lemma common_mem_inj : mem_inj common_keys.
Proof. apply nodup_mem_inj. apply nodupb_NoDup. vm_compute. reflexivity. Qed.
Lemma level_mem_inj : mem_inj level_keys.
Proof. apply nodup_mem_inj. apply nodupb_NoDup. vm_compute. reflexivity. Qed.

Lemma known_alookup k t : In (k, t) key_types <-> exists mem c, alookup k common_keys = Some (mem, c) /\ t = vt c.
Proof.
  rewrite key_types_common. split.
  - intros H. apply in_map_iff in H. destruct H as ([k' [mem c]] & E & Hi). injection E as <- <-.
    exists mem, c. split; [|reflexivity]. apply in_alookup_nodup; [exact common_keys_nodup|exact Hi].
  - intros (mem & c & E & ->). apply alookup_in in E. apply in_map_iff. exists (k, (mem, c)). auto.
Qed.

(** conversions: the outcome of get_as by the type *)
Lemma get_as_ok t (v : json F) : (exists x, get_as t v = Ok x) <-> accepts (vt t) v /\ in_range (vt t) v.
Proof.
  destruct t; cbn [vt accepts in_range get_as].
  1-3: split; [auto|intros _; eexists; reflexivity].
  - destruct v as [|b| | | | |]; cbn [get_bool bind];
      (split; [intros [x Hx]; try discriminate|intros [[b' H] _]; try discriminate]).
    + split; [exists b; reflexivity|exact I].
    + eexists; reflexivity.
  - destruct v as [|b|z|f| | |]; cbn [get_dbl bind];
      (split; [intros [x Hx]; try discriminate|intros [[[z' H]|[f' H]] _]; try discriminate]);
      try (eexists; reflexivity); split; [left|exact I|right|exact I]; eexists; reflexivity.
  - destruct v as [|b|z|f| | |]; cbn [get_u32 bind];
      (split; [intros [x Hx]; try discriminate
              |intros [[[z' H]|[[f' H]|[b' H]]] R]; try discriminate]); try (eexists; reflexivity).
    + split; [right; right; eexists; reflexivity|intros ? ?; discriminate].
    + split; [left; eexists; reflexivity|intros ? ?; discriminate].
    + split; [right; left; eexists; reflexivity|]. intros g E. injection E as <-.
      destruct (ftoZ f) as [z|]; [|discriminate]. exists z. split; [reflexivity|].
      destruct ((0 <=? z) && (z <? 2 ^ 32))%Z eqn:B; [|discriminate]. apply andb_prop in B. lia.
    + destruct (R f eq_refl) as (z & -> & Hz).
      replace ((0 <=? z) && (z <? 2 ^ 32))%Z with true by (symmetry; apply andb_true_intro; lia).
      eexists; reflexivity.
  - destruct v as [|b|z|f| | |]; cbn [get_i64 bind];
      (split; [intros [x Hx]; try discriminate
              |intros [[[z' H]|[[f' H]|[b' H]]] R]; try discriminate]); try (eexists; reflexivity).
    + split; [right; right; eexists; reflexivity|intros ? ?; discriminate].
    + split; [left; eexists; reflexivity|intros ? ?; discriminate].
    + split; [right; left; eexists; reflexivity|]. intros g E. injection E as <-.
      destruct (ftoZ f) as [z|]; [|discriminate]. exists z. reflexivity.
    + destruct (R f eq_refl) as (z & ->). eexists; reflexivity.
Qed.

Lemma get_as_throw t (v : json F) : get_as t v = Throw <-> ~ accepts (vt t) v.
Proof.
  destruct t; cbn [vt accepts get_as].
  1-3: split; [discriminate|intros H; destruct (H I)].
  - destruct v as [|b| | | | |]; cbn [get_bool bind]; (split; [intros H; try discriminate|intros H; try reflexivity]);
      try (intros [? N]; discriminate). exfalso; apply H; eexists; reflexivity.
  - destruct v as [|b|z|f| | |]; cbn [get_dbl bind]; (split; [intros H; try discriminate|intros H; try reflexivity]);
      try (intros [[? N]|[? N]]; discriminate); exfalso; apply H; eauto.
  - destruct v as [|b|z|f| | |]; cbn [get_u32 bind]; (split; [intros H; try discriminate|intros H; try reflexivity]);
      try (intros [[? N]|[[? N]|[? N]]]; discriminate); try (exfalso; apply H; eauto; fail).
    destruct (ftoZ f) as [z|]; [|discriminate]. destruct ((0 <=? z) && (z <? 2 ^ 32))%Z; discriminate.
  - destruct v as [|b|z|f| | |]; cbn [get_i64 bind]; (split; [intros H; try discriminate|intros H; try reflexivity]);
      try (intros [[? N]|[[? N]|[? N]]]; discriminate); try (exfalso; apply H; eauto; fail).
    destruct (ftoZ f) as [z|]; discriminate.
Qed.

Lemma get_as_fuel t (v : json F) : get_as t v <> OutOfFuel.
Proof.
  destruct t; cbn [get_as]; try discriminate; destruct v; cbn; try discriminate;
    repeat match goal with |- context [ftoZ ?f] => destruct (ftoZ f) end; cbn; try discriminate.
  match goal with |- context [if ?b then _ else _] => destruct b end; discriminate.
Qed.

Lemma good_readable (e : string * json F) : good common_keys e <-> readable e.
Proof.
  split.
  - intros Hg t Ht. apply known_alookup in Ht. destruct Ht as (mem & c & E & ->). apply get_as_ok. exact (Hg _ _ E).
  - intros Hr mem c E. apply get_as_ok. apply Hr. apply known_alookup. eauto.
Qed.
Lemma good_readable_all (m : list (string * json F)) : Forall readable m -> Forall (good common_keys) m.
Proof. apply Forall_impl. intros e H. apply good_readable; exact H. Qed.

Lemma unknown_alookup k : ~ known k -> alookup k common_keys = None.
Proof.
  intros H. destruct (alookup k common_keys) as [[mem c]|] eqn:E; [|reflexivity].
  exfalso. apply H. exists (vt c). apply known_alookup. eauto.
Qed.

(** one row *)
Lemma row_generic (A : Type) key mem t (proj : settings F -> A) dflt (means : json F -> A -> Prop) (m : list (string * json F)) st lv :
  alookup key common_keys = Some (mem, t) -> keys_sorted m -> Forall readable m ->
  read_list common_keys m [] = Ok st ->
  (alookup mem st = None -> proj (settings_of st lv) = dflt) ->
  (forall v x, get_as t v = Ok x -> alookup mem st = Some x -> means v (proj (settings_of st lv))) ->
  has_setting m (settings_of st lv) (Row key proj dflt means).
Proof.
  intros Ek Hs Hr H Hd Hm. cbn [has_setting].
  destruct (in_dec string_dec key (map fst m)) as [Hi|Hn].
  - left. apply in_map_iff in Hi. destruct Hi as ([k v] & E & Hi). cbn [fst] in E. subst k.
    exists v. split; [exact Hi|].
    destruct (@read_list_found common_keys key mem t v m common_mem_inj (keys_sorted_nodup Hs)
                (good_readable_all Hr) Ek Hi [] st H) as (x & Hx & Hl).
    exact (Hm v x Hx Hl).
  - right. split; [exact Hn|]. apply Hd. rewrite (@read_list_other common_keys mem m) with (2 := H); [reflexivity|].
    intros k' t' E'. rewrite (common_mem_inj _ _ E' Ek). exact Hn.
Qed.

Lemma row_flag key mem (proj : settings F -> bool) d (m : list (string * json F)) st lv :
  alookup key common_keys = Some (mem, TBool) -> keys_sorted m -> Forall readable m ->
  read_list common_keys m [] = Ok st -> proj (settings_of st lv) = sb st mem d ->
  has_setting m (settings_of st lv) (flag key proj d).
Proof.
  intros Ek Hs Hr H Hp. eapply row_generic; try eassumption.
  - intros E. rewrite Hp. unfold sb. rewrite E. reflexivity.
  - intros v x Hx E. rewrite Hp. unfold sb. rewrite E. cbn [get_as] in Hx.
    destruct v; cbn in Hx; try discriminate. injection Hx as <-. constructor.
Qed.
Lemma row_num key mem (proj : settings F -> F) d (m : list (string * json F)) st lv :
  alookup key common_keys = Some (mem, TDbl) -> keys_sorted m -> Forall readable m ->
  read_list common_keys m [] = Ok st -> proj (settings_of st lv) = sd st mem d ->
  has_setting m (settings_of st lv) (num key proj d).
Proof.
  intros Ek Hs Hr H Hp. eapply row_generic; try eassumption.
  - intros E. rewrite Hp. unfold sd. rewrite E. reflexivity.
  - intros v x Hx E. rewrite Hp. unfold sd. rewrite E. cbn [get_as] in Hx.
    destruct v; cbn in Hx; try discriminate; injection Hx as <-; constructor.
Qed.

Lemma u32_means (v : json F) z : get_u32 v = Ok z -> means_int 0 (2 ^ 32) v z /\ (0 <= z)%Z.
Proof.
  destruct v as [|b|y|f| | |]; cbn [get_u32]; intros H; try discriminate.
  - injection H as <-. destruct b; split; constructor || (cbn; lia).
  - injection H as <-. pose proof (Z.mod_pos_bound y (2 ^ 32)%Z ltac:(lia)) as B. split; [|lia].
    apply mi_int with (q := (y / 2 ^ 32)%Z); [lia|]. pose proof (Z_div_mod_eq_full y (2 ^ 32)%Z). lia.
  - destruct (ftoZ f) as [y|] eqn:E; [|discriminate].
    destruct ((0 <=? y) && (y <? 2 ^ 32))%Z eqn:B; [|discriminate]. injection H as <-.
    apply andb_prop in B. split; [|lia]. apply mi_flt. exact E.
Qed.
Lemma i64_means (v : json F) z : get_i64 v = Ok z -> means_int (- 2 ^ 63) (2 ^ 64) v z.
Proof.
  destruct v as [|b|y|f| | |]; cbn [get_i64]; intros H; try discriminate.
  - injection H as <-. destruct b; constructor.
  - injection H as <-. unfold wrap_signed. change (64 - 1)%Z with 63%Z.
    pose proof (Z.mod_pos_bound (y + 2 ^ 63) (2 ^ 64)%Z ltac:(lia)) as B.
    apply mi_int with (q := ((y + 2 ^ 63) / 2 ^ 64)%Z); [lia|].
    pose proof (Z_div_mod_eq_full (y + 2 ^ 63) (2 ^ 64)%Z). lia.
  - destruct (ftoZ f) as [y|] eqn:E; [|discriminate]. injection H as <-. apply mi_flt. exact E.
Qed.

Lemma row_count key mem (proj : settings F -> nat) d (m : list (string * json F)) st lv :
  alookup key common_keys = Some (mem, TU32) -> keys_sorted m -> Forall readable m ->
  read_list common_keys m [] = Ok st -> proj (settings_of st lv) = Z.to_nat (su st mem (Z.of_nat d)) ->
  has_setting m (settings_of st lv) (count key proj d).
Proof.
  intros Ek Hs Hr H Hp. eapply row_generic; try eassumption.
  - intros E. rewrite Hp. unfold su. rewrite E. apply Nat2Z.id.
  - intros v x Hx E. rewrite Hp. unfold su. rewrite E. cbn [get_as] in Hx.
    destruct (get_u32 v) as [z| | |] eqn:Ez; cbn [bind] in Hx; try discriminate. injection Hx as <-.
    apply u32_means in Ez. destruct Ez as [Ez Hz]. unfold means_nat. rewrite Z2Nat.id by exact Hz. exact Ez.
Qed.
Lemma row_z key mem (proj : settings F -> Z) d (m : list (string * json F)) st lv :
  alookup key common_keys = Some (mem, TU32) -> keys_sorted m -> Forall readable m ->
  read_list common_keys m [] = Ok st -> proj (settings_of st lv) = su st mem d ->
  has_setting m (settings_of st lv) (Row key proj d (means_int 0 (2 ^ 32))).
Proof.
  intros Ek Hs Hr H Hp. eapply row_generic; try eassumption.
  - intros E. rewrite Hp. unfold su. rewrite E. reflexivity.
  - intros v x Hx E. rewrite Hp. unfold su. rewrite E. cbn [get_as] in Hx.
    destruct (get_u32 v) as [z| | |] eqn:Ez; cbn [bind] in Hx; try discriminate. injection Hx as <-.
    exact (proj1 (u32_means _ Ez)).
Qed.
Lemma row_sec key mem (proj : settings F -> Z) d (m : list (string * json F)) st lv :
  alookup key common_keys = Some (mem, TI64) -> keys_sorted m -> Forall readable m ->
  read_list common_keys m [] = Ok st -> proj (settings_of st lv) = si st mem d ->
  has_setting m (settings_of st lv) (Row key proj d (means_int (- 2 ^ 63) (2 ^ 64))).
Proof.
  intros Ek Hs Hr H Hp. eapply row_generic; try eassumption.
  - intros E. rewrite Hp. unfold si. rewrite E. reflexivity.
  - intros v x Hx E. rewrite Hp. unfold si. rewrite E. cbn [get_as] in Hx.
    destruct (get_i64 v) as [z| | |] eqn:Ez; cbn [bind] in Hx; try discriminate. injection Hx as <-.
    exact (i64_means _ Ez).
Qed.

Lemma enum_means (E : Type) (d : E) names (v : json F) : means_name d names v (get_enum d names v).
Proof.
  destruct v as [| | | |s| |]; cbn [get_enum]; try (apply me_other; intros ? ? _; discriminate).
  destruct (alookup s names) as [e|] eqn:Es.
  - apply me_in. apply alookup_in. exact Es.
  - apply me_other. intros s' e Hi Hs. injection Hs as <-. apply alookup_none in Es. apply Es.
    apply in_map_iff. exists (s, e). auto.
Qed.

Lemma rows_hold (m : list (string * json F)) st lv : keys_sorted m -> Forall readable m ->
  read_list common_keys m [] = Ok st -> Forall (has_setting m (settings_of st lv)) rows.
Proof.
  intros Hs Hr H. unfold rows. repeat apply Forall_cons; try apply Forall_nil.
  all: try (eapply row_flag; [reflexivity|eassumption|eassumption|eassumption|reflexivity]).
  all: try (eapply row_num; [reflexivity|eassumption|eassumption|eassumption|reflexivity]).
  all: try (eapply row_count; [reflexivity|eassumption|eassumption|eassumption|reflexivity]).
  all: try (eapply row_z; [reflexivity|eassumption|eassumption|eassumption|reflexivity]).
  all: try (eapply row_sec; [reflexivity|eassumption|eassumption|eassumption|reflexivity]).
  all: eapply row_generic; [reflexivity|eassumption|eassumption|eassumption
    |intros E; unfold settings_of; cbn [s_algo s_mtype s_signals]; rewrite E; reflexivity
    |intros v x Hx E; unfold settings_of; cbn [s_algo s_mtype s_signals]; rewrite E; cbn [get_as] in Hx;
     injection Hx as <-; apply enum_means].
Qed.

(** the altitude flag has no key *)
Lemma altitude_none (m : list (string * json F)) st : read_list common_keys m [] = Ok st -> alookup "useAltitude" st = None.
Proof.
  intros H. rewrite (@read_list_other common_keys "useAltitude" m) with (2 := H); [reflexivity|].
  intros k t E. exfalso. apply alookup_in in E. revert E. unfold common_keys. cbn [In].
  intros E. repeat (destruct E as [E|E]; [discriminate E|]). exact E.
Qed.

(** values that are not objects *)
Lemma digits_unknown n (tbl : list (string * (string * ctype))) :
  (forall k x, In (k, x) tbl -> match k with String c _ => (57 < nat_of_ascii c)%nat | EmptyString => False end) ->
  alookup (NilEmpty.string_of_uint n) tbl = None /\ alookup "" tbl = None.
Proof.
  intros Ht. split; apply alookup_none; intros Hi; apply in_map_iff in Hi; destruct Hi as ([k x] & E & Hi);
    specialize (Ht _ _ Hi); cbn [fst] in E; subst k; [|exact Ht].
  destruct n; cbn in Ht; lia.
Qed.
Lemma read_keys_unknown tbl (j : json F) keys s : Forall (fun k => alookup k tbl = None) keys ->
  read_keys tbl j keys s = Ok s.
Proof. induction 1 as [|k t Hk Ht IH]; cbn [read_keys]; [reflexivity|]. rewrite Hk. exact IH. Qed.
Lemma read_struct_other tbl (j : json F) :
  (forall k x, In (k, x) tbl -> match k with String c _ => (57 < nat_of_ascii c)%nat | EmptyString => False end) ->
  (forall m, j <> JObj m) -> read_struct tbl j = Ok [].
Proof.
  intros Ht Hj. unfold read_struct. apply read_keys_unknown.
  destruct j as [| | | | |l|m]; cbn [jkeys]; try (constructor; [apply (digits_unknown (Nat.to_uint 0) _ Ht)|constructor]).
  - constructor.
  - apply Forall_forall. intros k Hk. apply in_map_iff in Hk. destruct Hk as (i & <- & _).
    apply digits_unknown. exact Ht.
  - destruct (Hj m eq_refl).
Qed.
Lemma common_first : forall k x, In (k, x) common_keys -> match k with String c _ => (57 < nat_of_ascii c)%nat | EmptyString => False end.
Proof.
  intros k x H. assert (G : forallb (fun e => match fst e with String c _ => Nat.ltb 57 (nat_of_ascii c) | EmptyString => false end) common_keys = true) by (vm_compute; reflexivity).
  rewrite forallb_forall in G. specialize (G _ H). cbn [fst] in G. destruct k; [discriminate|]. apply Nat.ltb_lt in G. exact G.
Qed.
Lemma level_first : forall k x, In (k, x) level_keys -> match k with String c _ => (57 < nat_of_ascii c)%nat | EmptyString => False end.
Proof.
  intros k x H. assert (G : forallb (fun e => match fst e with String c _ => Nat.ltb 57 (nat_of_ascii c) | EmptyString => false end) level_keys = true) by (vm_compute; reflexivity).
  rewrite forallb_forall in G. specialize (G _ H). cbn [fst] in G. destruct k; [discriminate|]. apply Nat.ltb_lt in G. exact G.
Qed.

Lemma read_list_nothrow tbl (m : list (string * json F)) : forall s, read_list tbl m s <> Throw /\ read_list tbl m s <> OutOfFuel.
Proof.
  induction m as [|[k v] m IH]; intros s; cbn [read_list]; [split; discriminate|].
  destruct (alookup k tbl) as [[mem t]|]; [|apply IH].
  pose proof (get_as_fuel t v) as Hf. destruct (get_as t v); try (split; discriminate); try apply IH.
  destruct (Hf eq_refl).
Qed.

(** the first entry that is not read decides *)
Lemma read_list_split (m : list (string * json F)) :
  Forall readable m \/
  (exists m1 e m2, m = m1 ++ e :: m2 /\ Forall readable m1 /\ (mistyped e \/ overflows e)).
Proof.
  induction m as [|[k v] m IH]; [left; constructor|].
  destruct (alookup k common_keys) as [[mem t]|] eqn:E.
  - assert (Hk : In (k, vt t) key_types) by (apply known_alookup; eauto).
    destruct (get_as t v) as [x| | |] eqn:G.
    + assert (Hr : readable (k, v)).
      { intros t' Ht'. apply known_alookup in Ht'. destruct Ht' as (mem' & c & E' & ->). cbn [fst] in E'. rewrite E in E'.
        injection E' as <- <-. apply get_as_ok. eauto. }
      destruct IH as [IH|(m1 & e & m2 & -> & H1 & H2)]; [left; constructor; assumption|].
      right. exists ((k, v) :: m1), e, m2. split; [reflexivity|]. split; [constructor; assumption|exact H2].
    + right. exists [], (k, v), m. split; [reflexivity|]. split; [constructor|]. left. exists (vt t).
      split; [exact Hk|apply get_as_throw; exact G].
    + right. exists [], (k, v), m. split; [reflexivity|]. split; [constructor|]. right. exists (vt t).
      split; [exact Hk|]. assert (Ha : accepts (vt t) v).
      { destruct t; cbn [vt accepts get_as] in *; try exact I; destruct v; cbn in G; try discriminate; eauto. }
      split; [exact Ha|]. intros Hi. destruct (proj2 (get_as_ok t v) (conj Ha Hi)) as [x Hx]. congruence.
    + destruct (get_as_fuel _ _ G).
  - assert (Hr : readable (k, v)).
    { intros t' Ht'. apply known_alookup in Ht'. destruct Ht' as (mem' & c & E' & ->). cbn [fst] in E'. congruence. }
    destruct IH as [IH|(m1 & e & m2 & -> & H1 & H2)]; [left; constructor; assumption|].
    right. exists ((k, v) :: m1), e, m2. split; [reflexivity|]. split; [constructor; assumption|exact H2].
Qed.

Lemma read_list_mistyped m1 (e : string * json F) m2 s : Forall readable m1 -> mistyped e ->
  read_list common_keys (m1 ++ e :: m2) s = read_list common_keys m1 s.
Proof.
  intros Hr (t & Ht & Ha). destruct e as [k v]. cbn [fst snd] in *. apply known_alookup in Ht.
  destruct Ht as (mem & c & E & ->). rewrite (@read_list_app common_keys m1 _ (good_readable_all Hr)).
  apply get_as_throw in Ha. cbn [read_list]. rewrite E, Ha. destruct (read_list common_keys m1 s); reflexivity.
Qed.
Lemma read_list_overflow m1 (e : string * json F) m2 s : Forall readable m1 -> overflows e ->
  read_list common_keys (m1 ++ e :: m2) s = UB.
Proof.
  intros Hr (t & Ht & Ha & Hi). destruct e as [k v]. cbn [fst snd] in *. apply known_alookup in Ht.
  destruct Ht as (mem & c & E & ->). rewrite (@read_list_app common_keys m1 _ (good_readable_all Hr)).
  destruct (@read_list_good common_keys m1 (good_readable_all Hr) s) as [s' ->]. cbn [bind read_list]. rewrite E.
  destruct (get_as c v) as [x| | |] eqn:G; [|destruct (proj1 (get_as_throw _ _) G Ha)|reflexivity|destruct (get_as_fuel _ _ G)].
  exfalso. apply Hi. apply (proj1 (get_as_ok c v)). eauto.
Qed.
End Pf.
