(** C82, C83: reading settings files. *)
From Coq Require Import Reals Lra Lia Sorted SpecFloat DecimalString Ascii.
From Verif Require Import Lib NumOrd NumReal NumFloat LibR SortInst Tools Json Spec_Json Spec_Client Client Pf_Json Pf_JsonF Ex.
Local Open Scope string_scope.
Local Open Scope list_scope.
#[local] Existing Instance nf. #[local] Existing Instance isorter.

(** ** C82: common settings *)
Theorem C82_read {F : Type} {NF : Num F} (m : list (string * json F)) (lv : list (string * (F * F))) :
  keys_sorted m -> Forall readable m ->
  exists s, get_common (JObj m) lv = Ok s /\ Forall (has_setting m s) rows /\ s_altitude s = false /\ s_levels s = lv.
Proof.
  intros Hs Hr. unfold get_common. rewrite (read_struct_obj common_keys Hs).
  destruct (read_list_good (good_readable_all Hr) []) as [st Hst]. rewrite Hst. cbn [bind].
  exists (settings_of st lv). split; [reflexivity|]. split; [exact (rows_hold lv Hs Hr Hst)|].
  split; [|reflexivity]. unfold settings_of. cbn [s_altitude]. unfold sb. rewrite (altitude_none m Hst). reflexivity.
Qed.
Print Assumptions C82_read.
(** the first value of a wrong type hides every later key *)
Theorem C82_first_error {F : Type} {NF : Num F} (m1 m2 : list (string * json F)) (e : string * json F)
    (lv : list (string * (F * F))) :
  keys_sorted (m1 ++ e :: m2) -> Forall readable m1 -> mistyped e ->
  get_common (JObj (m1 ++ e :: m2)) lv = get_common (JObj m1) lv.
Proof.
  intros Hs Hr He. unfold get_common. rewrite (read_struct_obj common_keys Hs), (read_struct_obj common_keys (keys_sorted_app_l _ _ Hs)).
  rewrite (read_list_mistyped m2 [] Hr He). reflexivity.
Qed.
Print Assumptions C82_first_error.
(** reading never throws, and is undefined exactly when a number out of range
    comes before every value of a wrong type *)
Theorem C82_outcomes {F : Type} {NF : Num F} (j : json F) (lv : list (string * (F * F))) :
  (forall m, j = JObj m -> keys_sorted m) ->
  get_common j lv <> Throw /\ get_common j lv <> OutOfFuel /\
  (get_common j lv = UB <-> exists m1 e m2, j = JObj (m1 ++ e :: m2) /\ Forall readable m1 /\ overflows e) /\
  ((forall m, j <> JObj m) -> get_common j lv = get_common (JObj []) lv).
Proof.
  intros Hj.
  assert (D : (exists m, j = JObj m) \/ forall m, j <> JObj m).
  { destruct j; try (right; intros ?; discriminate). left; eexists; reflexivity. }
  destruct D as [[m ->]|Hn].
  - specialize (Hj m eq_refl). unfold get_common. rewrite (read_struct_obj common_keys Hj).
    destruct (read_list_nothrow common_keys m []) as [H1 H2].
    split; [destruct (read_list common_keys m []); cbn [bind]; congruence|].
    split; [destruct (read_list common_keys m []); cbn [bind]; congruence|]. split.
    + split.
      * intros H. destruct (read_list_split m) as [Hr|(m1 & e & m2 & -> & Hr & [He|He])].
        -- destruct (read_list_good (good_readable_all Hr) []) as [st Hst]. rewrite Hst in H. discriminate.
        -- rewrite (read_list_mistyped m2 [] Hr He) in H.
           destruct (read_list_good (good_readable_all Hr) []) as [st Hst]. rewrite Hst in H. discriminate.
        -- exists m1, e, m2. auto.
      * intros (m1 & e & m2 & E & Hr & He). injection E as ->. rewrite (read_list_overflow m2 [] Hr He). reflexivity.
    + intros N. destruct (N m eq_refl).
  - unfold get_common. rewrite (read_struct_other _ common_first Hn). cbn [bind]. split; [discriminate|]. split; [discriminate|].
    split; [|reflexivity]. split; [discriminate|]. intros (m1 & e & m2 & E & _). destruct (Hn _ E).
Qed.
Print Assumptions C82_outcomes.
(** keys that are not read make no difference ... *)
Theorem C82_unknown_keys {F : Type} {NF : Num F} (m1 m2 : list (string * json F)) (k : string) (v : json F)
    (lv : list (string * (F * F))) :
  keys_sorted (m1 ++ (k, v) :: m2) -> ~ known k ->
  get_common (JObj (m1 ++ (k, v) :: m2)) lv = get_common (JObj (m1 ++ m2)) lv.
Proof.
  intros Hs Hk. pose proof (keys_sorted_remove _ _ _ Hs) as Hs'. unfold get_common. rewrite (read_struct_obj common_keys Hs), (read_struct_obj common_keys Hs').
  rewrite (@read_list_skip F NF common_keys k v m1 m2 (unknown_alookup Hk)). reflexivity.
Qed.
Print Assumptions C82_unknown_keys.
(** ... and of the names documented in navigation_settings.h three are not read:
    those of kNeighbors, useAltitude and fuseGpsBorderM *)
Theorem C82_documented_names (k : string) : In k documented ->
  (known k <-> k <> "K_neighbors" /\ k <> "Use_altitude" /\ k <> "Fuse_gps_border").
Proof.
  intros H.
  assert (G : forallb (fun k => Bool.eqb (existsb (fun e => String.eqb k (fst e)) key_types)
    (negb (String.eqb k "K_neighbors" || String.eqb k "Use_altitude" || String.eqb k "Fuse_gps_border"))) documented = true)
    by (vm_compute; reflexivity).
  rewrite forallb_forall in G. specialize (G k H). apply Bool.eqb_prop in G.
  assert (K : known k <-> existsb (fun e => String.eqb k (fst e)) key_types = true).
  { rewrite existsb_exists. split.
    - intros [t Ht]. exists (k, t). split; [exact Ht|apply String.eqb_refl].
    - intros ([k' t] & Ht & E). apply String.eqb_eq in E. cbn [fst] in E. subst k'. exists t. exact Ht. }
  rewrite K, G. rewrite Bool.negb_true_iff, !Bool.orb_false_iff, !String.eqb_neq. tauto.
Qed.
Print Assumptions C82_documented_names.
Theorem C82_documented_names_refuted : exists k : string, In k documented /\ ~ known k.
Proof.
  assert (H : In "Use_altitude" documented) by (unfold documented; cbn [In]; tauto).
  exists "Use_altitude". split; [exact H|]. intros K. apply (C82_documented_names _ H) in K. destruct K as (_ & N & _). apply N. reflexivity.
Qed.
Print Assumptions C82_documented_names_refuted.
(** so no settings file turns altitudes on *)
Theorem C82_no_altitude {F : Type} {NF : Num F} (j : json F) (s : settings F) :
  (forall top c rest, j = JObj top -> In ("common_settings", JArr (JObj c :: rest)) top -> keys_sorted c) ->
  create_settings j = Ok s -> s_altitude s = false.
Proof.
  intros Hw H. unfold create_settings in H.
  destruct (jat "level_settings" j) as [ls| | |]; try discriminate. cbn [bind] in H.
  destruct (fold_left read_level (jelems ls) (Ok [])) as [lv| | |]; try discriminate. cbn [bind] in H.
  destruct (jat "common_settings" j) as [v| | |] eqn:Ec; try discriminate. cbn [bind] in H.
  destruct (jidx0 v) as [c| | |] eqn:Ei; try discriminate. cbn [bind] in H.
  assert (Hc : forall m, c = JObj m -> keys_sorted m).
  { intros m ->. destruct j as [| | | | | |top]; try discriminate. cbn [jat] in Ec.
    destruct (alookup "common_settings" top) as [v'|] eqn:E; [|discriminate]. cbn in Ec. injection Ec as ->.
    apply alookup_in in E. destruct v as [| | | | |[|x l]|]; try discriminate. cbn in Ei. injection Ei as ->.
    exact (Hw _ _ _ eq_refl E). }
  assert (D : (exists m, c = JObj m) \/ forall m, c <> JObj m).
  { destruct c; try (right; intros ?; discriminate). left; eexists; reflexivity. }
  unfold get_common in H. destruct D as [[m ->]|Hn].
  - rewrite (read_struct_obj common_keys (Hc m eq_refl)) in H. destruct (read_list common_keys m []) as [st| | |] eqn:Est; try discriminate.
    cbn [bind] in H. injection H as <-. unfold settings_of. cbn [s_altitude]. unfold sb. rewrite (altitude_none m Est). reflexivity.
  - rewrite (read_struct_other _ common_first Hn) in H. cbn [bind] in H. injection H as <-. reflexivity.
Qed.
Print Assumptions C82_no_altitude.
(** one bad value does not lose that value only: the algorithm asked for is
    silently replaced as well *)
Theorem C82_one_bad_value_refuted : exists (m1 m2 : list (string * json SF)) (k : string) (v : json SF),
  keys_sorted (m1 ++ (k, v) :: m2) /\ Forall (@readable SF nf) (m1 ++ m2) /\ mistyped (k, v) /\
  (exists s, @get_common SF nf (JObj (m1 ++ m2)) [] = Ok s /\ s_algo s = KNN) /\
  (exists s, @get_common SF nf (JObj (m1 ++ (k, v) :: m2)) [] = Ok s /\ s_algo s = PF_PDR).
Proof.
  exists [], [("Use_algorithm", JStr "KNN")], "Average_speed", (JStr "1.5").
  split; [repeat constructor|]. split.
  { constructor; [|constructor]. apply good_readable. intros mem t E. injection E as <- <-. eexists; reflexivity. }
  split.
  { exists Number. split; [unfold key_types; cbn [In fst]; tauto|]. cbn. intros [[z H]|[f H]]; discriminate. }
  split; eexists; split; reflexivity.
Qed.
Print Assumptions C82_one_bad_value_refuted.
Definition ex_common : list (string * json SF) :=
  [("K", JInt 5); ("Min_num_sats", JInt (-1)); ("N_closest_aps", JFlt (@lit SF nf 7 2)); ("Sigma_filter_window", JBool false);
   ("Smoothing", JInt 1); ("Use_Signals", JStr "wifi"); ("Use_algorithm", JStr "Knn"); ("Use_altitude", JBool true)].
(** the hypotheses hold of a file that sets seven of the settings; "Knn" is not
    a name, so PF_PDR is chosen; -1 wraps around; 3.5 is truncated; an
    out-of-range number is undefined *)
Example C82_example : keys_sorted ex_common /\ Forall (@readable SF nf) ex_common /\
  (exists s, @get_common SF nf (JObj ex_common) [] = Ok s /\ s_kneigh s = 5%nat /\ s_minsats s = (2 ^ 32 - 1)%Z /\
     s_nclosest s = 3%nat /\ s_sigmawin s = 0%nat /\ s_smoothing s = @fofZ SF nf 1 /\
     s_signals s = SWIFI /\ s_algo s = PF_PDR /\ s_altitude s = false) /\
  @get_common SF nf (JObj [("K", JFlt (@lit SF nf (-3) 2))]) [] = UB.
Proof.
  split; [repeat constructor|]. split.
  { repeat (apply Forall_cons; [apply good_readable; intros mem t E; vm_compute in E; try discriminate E; injection E as <- <-; eexists; vm_compute; reflexivity|]). constructor. }
  split; [|vm_compute; reflexivity].
  eexists. split; [vm_compute; reflexivity|].
  repeat split; vm_compute; reflexivity.
Qed.

(** ** C83: level settings and the whole file *)
Theorem C83_level {F : Type} {NF : Num F} (m : list (string * json F)) : keys_sorted m ->
  exists a b, get_level (JObj m) = Ok (a, b) /\
  (num_at "A" m -> level_value m "A" (fofZ (-82)) a /\
     (num_at "B" m -> level_value m "B" (fofZ 3) b) /\ (~ num_at "B" m -> b = fofZ 3)) /\
  (~ num_at "A" m -> a = fofZ (-82) /\ b = fofZ 3).
Proof. apply get_level_spec. Qed.
Print Assumptions C83_level.
(** a bad A loses B *)
Theorem C83_bad_A_refuted : exists (m : list (string * json SF)) (b : Z),
  keys_sorted m /\ In ("B", JInt b) m /\ @get_level SF nf (JObj m) = Ok (@fofZ SF nf (-82), @fofZ SF nf 3) /\ @fofZ SF nf b <> @fofZ SF nf 3.
Proof.
  exists [("A", JStr "-60"); ("B", JInt 2)], 2%Z. split; [repeat constructor|]. split; [right; left; reflexivity|].
  split; [reflexivity|]. vm_compute. discriminate.
Qed.
Print Assumptions C83_bad_A_refuted.
(** a file with well-formed level entries [xs] and common settings [c] *)
Theorem C83_file {F : Type} {NF : Num F} (top c : list (string * json F)) (ls : json F) (rest : list (json F))
    (xs : list (string * list (string * json F))) :
  keys_sorted top -> In ("level_settings", ls) top -> In ("common_settings", JArr (JObj c :: rest)) top ->
  Forall2 level_entry (jelems ls) xs -> keys_sorted c -> Forall readable c ->
  exists s, create_settings (JObj top) = Ok s /\ Forall (has_setting c s) rows /\
    forall id,
      (exists l1 m l2 ab, xs = l1 ++ (id, m) :: l2 /\ ~ In id (map fst l2) /\
         get_level (JObj m) = Ok ab /\ alookup id (s_levels s) = Some ab) \/
      (~ In id (map fst xs) /\ alookup id (s_levels s) = None).
Proof.
  intros Ht Hl Hc He Hs Hr. unfold create_settings. rewrite (@jat_obj F _ _ _ Ht Hl). cbn [bind].
  destruct (read_levels He []) as (lv & Hlv & Hid). rewrite Hlv. cbn [bind]. rewrite (@jat_obj F _ _ _ Ht Hc). cbn [bind jidx0].
  destruct (C82_read _ lv Hs Hr) as (s & E & Hrows & _ & El). exists s. rewrite El. auto.
Qed.
Print Assumptions C83_file.
(** what makes the file fail as a whole *)
Theorem C83_failures {F : Type} {NF : Num F} (top : list (string * json F)) : keys_sorted top ->
  (~ In "level_settings" (map fst top) -> create_settings (JObj top) = Throw) /\
  (forall ls lv, In ("level_settings", ls) top -> fold_left read_level (jelems ls) (Ok []) = Ok lv ->
     (~ In "common_settings" (map fst top) -> create_settings (JObj top) = Throw) /\
     (forall c, In ("common_settings", JObj c) top -> create_settings (JObj top) = Throw) /\
     (forall v, In ("common_settings", v) top -> v = JNull \/ v = JArr [] ->
        create_settings (JObj top) = get_common (JObj []) lv)) /\
  (forall m lv id, keys_sorted m -> In ("level", JStr id) m -> In ("settings", JArr []) m ->
     read_level (Ok lv) (JObj m) = UB) /\
  (forall m lv id o, keys_sorted m -> In ("level", JStr id) m -> In ("settings", JObj o) m ->
     read_level (Ok lv) (JObj m) = Throw).
Proof.
  intros Ht. split; [|split; [|split]].
  - intros H. unfold create_settings. rewrite (@jat_missing F _ _ H). reflexivity.
  - intros ls lv Hl Hlv. unfold create_settings. rewrite (@jat_obj F _ _ _ Ht Hl). cbn [bind]. rewrite Hlv. cbn [bind].
    split; [|split].
    + intros H. rewrite (@jat_missing F _ _ H). reflexivity.
    + intros c H. rewrite (@jat_obj F _ _ _ Ht H). reflexivity.
    + intros v H D. rewrite (@jat_obj F _ _ _ Ht H). destruct D as [-> | ->]; reflexivity.
  - intros m lv id Hm H1 H2. unfold read_level. cbn [bind]. rewrite (@jat_obj F _ _ _ Hm H1), (@jat_obj F _ _ _ Hm H2). reflexivity.
  - intros m lv id o Hm H1 H2. unfold read_level. cbn [bind]. rewrite (@jat_obj F _ _ _ Hm H1), (@jat_obj F _ _ _ Hm H2). reflexivity.
Qed.
Print Assumptions C83_failures.
(** a client other than KNN is created exactly when every level of the map has
    settings and the five durations fit in a long long of milliseconds *)
Theorem C83_client {F : Type} {NF : Num F} {SO : Sorter} (s : settings F) (c : collector F) :
  s_algo s <> KNN ->
  let has_all := forall l, In l (col_levels c) -> exists ab, alookup (l_id l) (s_levels s) = Some ab in
  let fits := forall x, In x [s_avg s; s_shift s; s_stopdetect s; s_deadreck s; s_stopupdate s] ->
                exists z, ftoZ (fofZ 1000 *! x) = Some z in
  (mk_config s c = Throw <-> ~ has_all) /\
  ((exists k, mk_config s c = Ok k) <-> has_all /\ fits) /\
  (mk_config s c = UB <-> has_all /\ ~ fits).
Proof.
  intros Ha has_all fits.
  assert (K : is_knn s = false) by (unfold is_knn; destruct (s_algo s); congruence).
  assert (Df : fits \/ ~ fits).
  { unfold fits. destruct (ftoZ (fofZ 1000 *! s_avg s)) eqn:E1; [|right; intros H; destruct (H (s_avg s)) as [z Hz]; [cbn; auto 10|congruence]].
    destruct (ftoZ (fofZ 1000 *! s_shift s)) eqn:E2; [|right; intros H; destruct (H (s_shift s)) as [z0 Hz]; [cbn; auto 10|congruence]].
    destruct (ftoZ (fofZ 1000 *! s_stopdetect s)) eqn:E3; [|right; intros H; destruct (H (s_stopdetect s)) as [z1 Hz]; [cbn; auto 10|congruence]].
    destruct (ftoZ (fofZ 1000 *! s_deadreck s)) eqn:E4; [|right; intros H; destruct (H (s_deadreck s)) as [z2 Hz]; [cbn; auto 10|congruence]].
    destruct (ftoZ (fofZ 1000 *! s_stopupdate s)) eqn:E5; [|right; intros H; destruct (H (s_stopupdate s)) as [z3 Hz]; [cbn; auto 10|congruence]].
    left. intros x [<-|[<-|[<-|[<-|[<-|[]]]]]]; eauto. }
  assert (Hf : forall zt, (fits -> exists k, (tris <- Ok [] ;; bc <- buffer_config s ;; pc <- post_config s ;;
      Ok (mkConfig s c bc pc (mkKT (levels_rmaps c) (ref_txs c) tris zt))) = Ok k) /\
    (~ fits -> (tris <- Ok [] ;; bc <- buffer_config s ;; pc <- post_config s ;;
      Ok (mkConfig s c bc pc (mkKT (levels_rmaps c) (ref_txs c) tris zt))) = UB)).
  { intros zt. cbn [bind]. unfold buffer_config, post_config, to_ms. unfold fits.
    destruct (ftoZ (fofZ 1000 *! s_avg s)) eqn:E1; cbn [bind];
      [|split; [intros H; destruct (H (s_avg s)) as [z Hz]; [cbn; auto 10|congruence]|reflexivity]].
    destruct (ftoZ (fofZ 1000 *! s_shift s)) eqn:E2; cbn [bind];
      [|split; [intros H; destruct (H (s_shift s)) as [z0 Hz]; [cbn; auto 10|congruence]|reflexivity]].
    destruct (ftoZ (fofZ 1000 *! s_stopdetect s)) eqn:E3; cbn [bind];
      [|split; [intros H; destruct (H (s_stopdetect s)) as [z1 Hz]; [cbn; auto 10|congruence]|reflexivity]].
    destruct (ftoZ (fofZ 1000 *! s_deadreck s)) eqn:E4; cbn [bind];
      [|split; [intros H; destruct (H (s_deadreck s)) as [z2 Hz]; [cbn; auto 10|congruence]|reflexivity]].
    destruct (ftoZ (fofZ 1000 *! s_stopupdate s)) eqn:E5; cbn [bind];
      [|split; [intros H; destruct (H (s_stopupdate s)) as [z3 Hz]; [cbn; auto 10|congruence]|reflexivity]].
    split; [intros _; eexists; reflexivity|]. intros N. exfalso. apply N.
    intros x [<-|[<-|[<-|[<-|[<-|[]]]]]]; eauto. }
  unfold mk_config. rewrite K. unfold zone_tables.
  destruct (zone_tables_acc s (col_levels c) []) as [Z1 Z2].
  destruct (levels_dec s (col_levels c)) as [Hl|Hl].
  - assert (HA : has_all).
    { intros l Hi. rewrite Forall_forall in Hl. specialize (Hl l Hi). destruct (alookup (l_id l) (s_levels s)) as [ab|]; [eauto|congruence]. }
    destruct (Z1 Hl) as [zt ->]. cbn [bind]. destruct (Hf zt) as [F1 F2]. cbn [bind] in F1, F2.
    destruct Df as [D|D].
    + destruct (F1 D) as [k ->]. split; [split; [discriminate|intros N; destruct (N HA)]|].
      split; [split; [auto|intros _; eexists; reflexivity]|split; [discriminate|intros [_ N]; destruct (N D)]].
    + rewrite (F2 D). split; [split; [discriminate|intros N; destruct (N HA)]|].
      split; [split; [intros [k Hk]; discriminate|intros [_ N]; destruct (D N)]|split; auto].
  - rewrite (Z2 Hl). cbn [bind].
    assert (HN : ~ has_all). { destruct Hl as (l & Hi & E). intros H. destruct (H l Hi) as [ab Hab]. congruence. }
    split; [tauto|]. split; [split; [intros [k Hk]; discriminate|tauto]|split; [discriminate|tauto]].
Qed.
Print Assumptions C83_client.
Definition ex_file (lv : list (json SF)) : json SF :=
  JObj [("common_settings", JArr [JObj ex_common]); ("level_settings", JArr lv)].
Definition ex_lv (id : string) (m : list (string * json SF)) : json SF := JObj [("level", JStr id); ("settings", JArr [JObj m])].
(** two entries for one level (the last one counts), and a map level without entry *)
Example C83_example :
  (exists s, @create_settings SF nf (ex_file [ex_lv "L1" [("A", JInt (-60))]; ex_lv "L1" [("B", JInt 2)]; ex_lv "L9" []]) = Ok s /\
     s_levels s = [("L1", (@fofZ SF nf (-82), @fofZ SF nf 2)); ("L9", (@fofZ SF nf (-82), @fofZ SF nf 3))] /\
     @mk_config SF nf isorter s ex_col = Throw) /\
  (exists s k, @create_settings SF nf (ex_file [ex_lv "L1" []; ex_lv "L2" []]) = Ok s /\ @mk_config SF nf isorter s ex_col = Ok k) /\
  Forall2 level_entry [ex_lv "L1" [("A", JInt (-60))]; ex_lv "L9" []] [("L1", [("A", JInt (-60))]); ("L9", [])].
Proof.
  split.
  { eexists. split; [vm_compute; reflexivity|]. split; vm_compute; reflexivity. }
  split.
  { do 2 eexists. split; [vm_compute; reflexivity|]. vm_compute. reflexivity. }
  repeat constructor; (do 2 eexists; split; [reflexivity|]; split; [repeat constructor|]; split; [cbn; auto|]; split; [cbn; auto|repeat constructor]).
Qed.
