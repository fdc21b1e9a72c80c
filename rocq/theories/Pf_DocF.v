(** Proofs about the program from its three files. *)
From Coq Require Import Lia.
From Verif Require Import NumOrd Client Spec_Preproc Spec_Client Pf_Client Pf_ClientInv Pf_ClientThrow Pf_ClientTop
  Driver Spec_Driver Pf_Driver Pf_ToolsH Pf_ToolsF P_Json.
From Verif Require Export Pf_Doc.
Set Implicit Arguments.
Local Open Scope string_scope.
Local Open Scope list_scope.

Section Prog.
Context {F : Type} {NF : Num F} {SO : Sorter}.

Lemma nt_insert (ts : list (triangle F)) v : insert_vertex ts v <> Throw.
Proof. unfold insert_vertex. cbv zeta. apply nt_bind; [apply nt_sort|]. intros; discriminate. Qed.
Lemma nt_triangulate (c : collector F) : triangulate c <> Throw.
Proof.
  unfold triangulate. generalize (@nil (string * list tri)). induction (col_levels c) as [|l ls IH]; intros acc; [discriminate|].
  cbn [triangulate_levels]. destruct (Nat.ltb 3 _); [|apply IH]. apply nt_bind.
  - unfold level_triangles, triangulate_vertices. destruct (Nat.ltb _ 3); [discriminate|].
    destruct (super_vertices _) as [[v0 v1] v2]. apply nt_bind.
    + apply (@nt_fold _ _ (fun ts v => insert_vertex ts v) (fun _ => True)); auto. intros a x _ _. apply nt_insert.
    + intros T _. apply nt_bind; [apply nt_sort|]. intros _ _. apply nt_sort.
  - intros [|t ts] _; [discriminate|apply IH].
Qed.
Lemma nt_ms (x : F) : to_ms x <> Throw.
Proof. unfold to_ms. destruct (ftoZ _); discriminate. Qed.
Lemma nt_mk_config (s : settings F) (c : collector F) :
  (s_algo s = KNN \/ forall l, In l (col_levels c) -> exists ab, alookup (l_id l) (s_levels s) = Some ab) -> mk_config s c <> Throw.
Proof.
  intros H. destruct (is_knn s) eqn:K.
  - unfold mk_config. rewrite K. cbn [bind]. apply nt_bind; [apply nt_triangulate|]. intros tris _.
    apply nt_bind; [unfold buffer_config; repeat (apply nt_bind; [apply nt_ms|intros ? _]); discriminate|]. intros bc _.
    apply nt_bind; [unfold post_config; repeat (apply nt_bind; [apply nt_ms|intros ? _]); discriminate|]. intros; discriminate.
  - assert (Hk : s_algo s <> KNN) by (unfold is_knn in K; destruct (s_algo s); congruence).
    destruct H as [H|H]; [congruence|]. intros E. apply (proj1 (C83_client s c Hk)) in E. apply E, H.
Qed.

Variable geom : list (poly F) -> box F * (F -> F -> bool).
Variable ord : list (Z * Geo F) -> list (Z * Geo F).
Hypothesis O : any_order ord.

Lemma stages fuel mapf setf logf xs c ls ms : map_file fuel mapf xs -> settings_file setf c ls -> log_file logf ms ->
  exists gs s col, parse_geojson_json geom fuel ord mapf = Ok gs /\ parse_geojson geom fuel ord xs = Ok gs /\ create_settings setf = Ok s /\
    Forall (has_setting c s) rows /\ add_geo_levels col0 gs = Ok col /\ nav_messages_json logf = Ok ms /\
    NoDup (map (@gl_id F) gs) /\ (forall lv, In lv (map (@l_id F) (col_levels col)) <-> exists a, In (JLevel lv a) xs) /\
    map (@l_id F) (col_levels col) = map (@gl_id F) gs /\
    (forall lv, (exists ab, alookup lv (s_levels s) = Some ab) <-> In lv (map fst ls)).
Proof.
  intros (Wm & R & fj & fs & A & I & S) (top & lj & rest & -> & Kt & L1 & L2 & Le & Kc & Rc) (Wl & Sl).
  destruct (geojson_total geom O R) as [gs E]. destruct (geojson_collected geom O R E) as [[col C] N].
  destruct (C83_file _ _ _ _ _ Kt L1 L2 Le Kc Rc) as (s & Es & Hr & Hid).
  exists gs, s, col. split; [rewrite (geojson_shown geom fuel ord Wm A I S); exact E|]. split; [exact E|]. split; [exact Es|].
  split; [exact Hr|]. split; [exact C|]. split; [apply (log_iff _ Wl), Sl|]. split; [exact N|].
  assert (Ids : map (@l_id F) (col_levels col) = map (@gl_id F) gs) by (rewrite (geo_levels_ids _ _ C); reflexivity).
  split; [|split; [exact Ids|]].
  - rewrite Ids. exact (proj1 (proj2 (geojson_exact _ _ geom _ E))).
  - intros lv. split.
    + intros [ab Hab]. destruct (Hid lv) as [(l1 & m & l2 & ab' & -> & _)|[_ N0]]; [|congruence].
      rewrite map_app, in_app_iff. right. left. reflexivity.
    + intros Hi. destruct (Hid lv) as [(l1 & m & l2 & ab' & _ & _ & _ & Ha)|[N0 _]]; [eauto|tauto].
Qed.

Variables (e : env F) (g : garbage F) (h : F).

Lemma program_outputs fuel mapf setf logf xs c ls ms n : map_file fuel mapf xs -> settings_file setf c ls -> log_file logf ms ->
  (0 < n)%Z -> (Z.of_nat (List.length ms) + n < 2 ^ 64)%Z -> (List.length ms <= fuel)%nat ->
  exists gs s, parse_geojson geom fuel ord xs = Ok gs /\ Forall (has_setting c s) rows /\
    (forall lv, (exists ab, alookup lv (s_levels s) = Some ab) <-> In lv (map fst ls)) /\
    forall k, built s gs k -> exists bs, cut (Z.to_nat n) ms bs /\
      same_outcome (fun lss r => map (map (@ln_out F)) lss = snd r)
        (program geom ord fuel e g h mapf logf setf n) (navigate_all e k (client0 g s) bs).
Proof.
  intros Hm Hs Hl H1 H2 H3. destruct (stages Hm Hs Hl) as (gs & s & col & E1 & E2 & E3 & Hr & E4 & E5 & N & Ids & Ids' & Lv).
  exists gs, s. split; [exact E2|]. split; [exact Hr|]. split; [exact Lv|]. intros k (col' & C' & K).
  assert (col' = col) by congruence. subst col'. unfold program. rewrite E1, E3. cbn [bind]. rewrite E4. cbn [bind]. rewrite K, E5. cbn [bind].
  destruct (@chunks_pos _ n ms fuel H1 H2 H3) as (bs & E & Cu). exists bs. split; [exact Cu|]. unfold run_driver. rewrite E. cbn [bind].
  apply drive_outputs. exact (cut_nonempty Cu).
Qed.
Lemma program_missing fuel mapf setf logf xs c ls ms n lv a : map_file fuel mapf xs -> settings_file setf c ls -> log_file logf ms ->
  ~ In ("Use_algorithm", JStr "KNN") c -> In (JLevel lv a) xs -> ~ In lv (map fst ls) ->
  program geom ord fuel e g h mapf logf setf n = Throw.
Proof.
  intros Hm Hs Hl Hk Hi Hn. destruct (stages Hm Hs Hl) as (gs & s & col & E1 & E2 & E3 & Hr & E4 & E5 & N & Ids & Ids' & Lv).
  unfold program. rewrite E1, E3. cbn [bind]. rewrite E4. cbn [bind].
  assert (T : mk_config s col = Throw).
  { assert (Hnk : s_algo s <> KNN).
    { unfold rows in Hr. apply Forall_inv in Hr. cbn [has_setting] in Hr. destruct Hr as [(v & Hv & Mv)|[_ ->]]; [|discriminate].
      intros Ea. rewrite Ea in Mv. inversion Mv as [s0 e0 Hin E0 Ee|v0 Hv0]; subst.
      cbn in Hin. repeat (destruct Hin as [Hin|Hin]; [injection Hin; intros; subst; try discriminate; tauto|]). destruct Hin. }
    apply (proj1 (@C83_client F NF SO s col Hnk)).
    intros H. assert (Hx : In lv (map (@l_id F) (col_levels col))) by (apply Ids; eauto).
    apply in_map_iff in Hx. destruct Hx as (l & <- & Hx). apply Hn, Lv, (H l Hx). }
  rewrite T. reflexivity.
Qed.
Lemma program_safe (NO : NumOrd F) fuel mapf setf logf xs c ls ms n : map_file fuel mapf xs -> settings_file setf c ls -> log_file logf ms ->
  (0 < n)%Z -> (Z.of_nat (List.length ms) + n < 2 ^ 64)%Z -> (List.length ms <= fuel)%nat ->
  (forall a, ~ In (JLevel "" a) xs) ->
  (In ("Use_algorithm", JStr "KNN") c \/ forall lv a, In (JLevel lv a) xs -> In lv (map fst ls)) ->
  program geom ord fuel e g h mapf logf setf n <> Throw.
Proof.
  intros Hm Hs Hl H1 H2 H3 He Ha. destruct (stages Hm Hs Hl) as (gs & s & col & E1 & E2 & E3 & Hr & E4 & E5 & N & Ids & Ids' & Lv).
  unfold program. rewrite E1, E3. cbn [bind]. rewrite E4. cbn [bind].
  assert (T : mk_config s col <> Throw).
  { apply nt_mk_config. destruct Ha as [Ha|Ha].
    - left. unfold rows in Hr. apply Forall_inv in Hr. cbn [has_setting] in Hr.
      destruct Hs as (top & lj & rest & _ & _ & _ & _ & _ & Kc & _).
      destruct Hr as [(v & Hv & Mv)|[N0 _]]; [|destruct N0; apply in_map_iff; exists ("Use_algorithm", JStr "KNN"); auto].
      assert (v = JStr "KNN") as ->.
      { pose proof (@in_alookup_nodup _ _ _ _ (keys_sorted_nodup Kc) Hv). pose proof (@in_alookup_nodup _ _ _ _ (keys_sorted_nodup Kc) Ha). congruence. }
      inversion Mv as [s0 e0 Hin|v0 Hv0].
      + cbn in Hin. repeat (destruct Hin as [Hin|Hin]; [injection Hin; congruence|]). destruct Hin.
      + exfalso. apply (Hv0 "KNN" KNN); [cbn; tauto|reflexivity].
    - right. intros l Hx. apply Lv. destruct (proj1 (Ids (l_id l)) (in_map _ _ _ Hx)) as [a Hi]. exact (Ha _ _ Hi). }
  destruct (mk_config s col) as [k| | |] eqn:K; try (cbn [bind]; discriminate); [|congruence]. cbn [bind]. rewrite E5. cbn [bind].
  destruct (@chunks_pos _ n ms fuel H1 H2 H3) as (bs & E & Cu). unfold run_driver. rewrite E. cbn [bind].
  pose proof (@drive_outputs F NF SO e k h bs (client0 g s) 0%Z pdr0 (cut_nonempty Cu)) as D.
  assert (NT : navigate_all e k (client0 g s) bs <> Throw).
  { apply (@never_throws F NF NO SO e s gs k g bs f0_eqb); [exists col; auto|exact N|]. rewrite <- Ids'. intros Hx. apply Ids in Hx. destruct Hx as [a Hi]. exact (He _ Hi). }
  intros X. rewrite X in D. destruct (navigate_all e k (client0 g s) bs); cbn in D; tauto.
Qed.
End Prog.
