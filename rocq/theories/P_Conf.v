(** C106-C108: settings in milliseconds, the low-passed samples, the tables of
    the fingerprints. *)
From Coq Require Import Reals Lra Lia.
From Verif Require Import Lib NumReal LibR Sensors SaCf SaPos Preproc Postproc Knn Client Spec_Sensors Spec_SaCf Spec_Conf Pf_Conf Pf_Radio NumFloat Ex.
Local Open Scope string_scope.
Local Open Scope list_scope.
Local Notation x2 x := (Some x : RX).

(** ** C106: settings *)
(** the stand-alone window: defined exactly if both times fit *)
Theorem C106_standalone a s :
  (forall c, sa_config (x2 a) (x2 s) = Ok c ->
     exists w t, whole_ms a w /\ whole_ms s t /\ int64 w /\ int64 t /\ window_rule w t (sc_keep c) (sc_shift c)) /\
  (sa_config (x2 a) (x2 s) = UB <-> exists w t, whole_ms a w /\ whole_ms s t /\ ~ (int64 w /\ int64 t)) /\
  (exists c, sa_config (x2 a) (x2 s) = Ok c \/ sa_config (x2 a) (x2 s) = UB).
Proof.
  unfold sa_config.
  destruct (to_ms_whole a) as [(w & W & I & E)|[E N]]; rewrite E; cbn [bind];
  destruct (to_ms_whole s) as [(t & W' & I' & E')|[E' N']]; rewrite ?E'; cbn [bind].
  - split; [|split; [split; [discriminate|]|eauto]].
    + intros c H. injection H as <-. exists w, t. cbn [sc_keep sc_shift]. pose proof (window_ok w t). auto 10.
    + intros (w2 & t2 & A & B & H). rewrite (whole_unique A W), (whole_unique B W') in H. tauto.
  - split; [discriminate|]. split; [|eexists (mkSacfg 0 0); auto]. split; [|reflexivity]. intros _.
    destruct (whole_exists s) as [t T]. exists w, t. split; [exact W|]. split; [exact T|]. intros [_ H]. apply (N' t T H).
  - split; [discriminate|]. split; [|eexists (mkSacfg 0 0); auto]. split; [|reflexivity]. intros _.
    destruct (whole_exists a) as [w T]. exists w, t. split; [exact T|]. split; [exact W'|]. intros [H _]. apply (N w T H).
  - split; [discriminate|]. split; [|eexists (mkSacfg 0 0); auto]. split; [|reflexivity]. intros _.
    destruct (whole_exists a) as [w T]. destruct (whole_exists s) as [t T']. exists w, t. split; [exact T|]. split; [exact T'|].
    intros [H _]. apply (N w T H).
Qed.
Print Assumptions C106_standalone.

(** the client: every period in use is the setting of its name *)
Theorem C106_client {SO : Sorter} (s : settings RX) (c : collector RX) k : mk_config s c = Ok k ->
  exists avg shift det upd dead, s_avg s = x2 avg /\ s_shift s = x2 shift /\ s_stopdetect s = x2 det /\
    s_stopupdate s = x2 upd /\ s_deadreck s = x2 dead /\
    (exists w t, whole_ms avg w /\ whole_ms shift t /\ window_rule w t (bc_keep (cf_buf k)) (bc_shift (cf_buf k))) /\
    whole_ms det (bc_stop (cf_buf k)) /\ whole_ms det (pc_stopdet (cf_post k)) /\
    whole_ms upd (pc_stopupd (cf_post k)) /\ whole_ms dead (pc_dead (cf_post k)) /\
    bc_usestops (cf_buf k) = s_stops s.
Proof.
  unfold mk_config. intros E.
  destruct (if is_knn s then Ok [] else zone_tables s c) as [zt| | |]; cbn [bind] in E; try discriminate E.
  destruct (if is_knn s then triangulate c else Ok []) as [tr| | |]; cbn [bind] in E; try discriminate E.
  unfold buffer_config, post_config in E.
  destruct (to_ms (s_avg s)) as [w| | |] eqn:E1; cbn [bind] in E; try discriminate E.
  destruct (to_ms (s_shift s)) as [t| | |] eqn:E2; cbn [bind] in E; try discriminate E.
  destruct (to_ms (s_stopdetect s)) as [d| | |] eqn:E3; cbn [bind] in E; try discriminate E.
  destruct (to_ms (s_deadreck s)) as [r| | |] eqn:E4; cbn [bind] in E; try discriminate E.
  destruct (to_ms (s_stopupdate s)) as [u| | |] eqn:E5; cbn [bind] in E; try discriminate E.
  apply Pf_Radio.Ok_inj in E. subst k. cbn [cf_buf cf_post bc_keep bc_shift bc_stop bc_usestops pc_dead pc_stopupd pc_stopdet].
  destruct (to_ms_real _ E1) as [x1 Q1]. destruct (to_ms_real _ E2) as [x2 Q2]. destruct (to_ms_real _ E3) as [x3 Q3].
  destruct (to_ms_real _ E4) as [x4 Q4]. destruct (to_ms_real _ E5) as [x5 Q5].
  rewrite Q1 in E1. rewrite Q2 in E2. rewrite Q3 in E3. rewrite Q4 in E4. rewrite Q5 in E5.
  apply to_ms_ok in E1, E2, E3, E4, E5. exists x1, x2, x3, x5, x4. repeat (split; [solve [auto | tauto | exists w, t; split; [tauto|]; split; [tauto|]; apply window_ok]|]). reflexivity.
Qed.
Print Assumptions C106_client.

(** half a millisecond is lost, towards zero on both sides, and a shift longer
    than the window becomes the window *)
Example C106_example : whole_ms (12345 / 10000) 1234 /\ whole_ms (- (12345 / 10000)) (-1234) /\
  window_rule 1000 3000 0 1000 /\ window_rule 3000 1000 2000 1000 /\ window_rule 3000 0 0 3000 /\
  (exists c, sa_config (x2 3) (x2 2) = Ok c /\ sc_keep c = 1000%Z /\ sc_shift c = 2000%Z).
Proof.
  split; [split; intros; lra|]. split; [split; intros; lra|]. split; [unfold window_rule; lia|]. split; [unfold window_rule; lia|]. split; [unfold window_rule; lia|].
  destruct (C106_standalone 3 2) as (H1 & H2 & c & [H3|H3]).
  - exists c. split; [exact H3|]. destruct (H1 c H3) as (w & t & A & B & _ & _ & R).
    assert (w = 3000%Z) by (apply (whole_unique A); split; intros; lra). assert (t = 2000%Z) by (apply (whole_unique B); split; intros; lra).
    subst. destruct R as (R1 & R2 & R3). specialize (R2 ltac:(lia)). lia.
  - exfalso. apply H2 in H3. destruct H3 as (w & t & A & B & N). apply N.
    assert (w = 3000%Z) by (apply (whole_unique A); split; intros; lra). assert (t = 2000%Z) by (apply (whole_unique B); split; intros; lra).
    subst. unfold int64. lia.
Qed.
(** a negative shift is neither zero nor longer than the window, so it is used as it is,
    and more than the window is kept *)
Theorem C106_negative_refuted : exists a s c, sa_config (x2 a) (x2 s) = Ok c /\ (sc_shift c < 0)%Z /\
  exists w, whole_ms a w /\ (w < sc_keep c)%Z.
Proof.
  exists 3%R, (-2)%R. destruct (C106_standalone 3 (-2)) as (H1 & H2 & c & [H3|H3]).
  - exists c. split; [exact H3|]. destruct (H1 c H3) as (w & t & A & B & _ & _ & R).
    assert (w = 3000%Z) by (apply (whole_unique A); split; intros; lra). assert (t = (-2000)%Z) by (apply (whole_unique B); split; intros; lra).
    subst. destruct R as (R1 & R2 & R3). specialize (R2 ltac:(lia)). split; [lia|]. exists 3000%Z. split; [exact A|lia].
  - exfalso. apply H2 in H3. destruct H3 as (w & t & A & B & N). apply N.
    assert (w = 3000%Z) by (apply (whole_unique A); split; intros; lra). assert (t = (-2000)%Z) by (apply (whole_unique B); split; intros; lra).
    subst. unfold int64. lia.
Qed.
Print Assumptions C106_negative_refuted.

(** ** C107: the low-passed samples *)
(** they reach nothing: neither the filter, nor what the client gets from it *)
Theorem C107_unread {F : Type} {NF : Num F} fuel (s : settings F) (c d : cfilter F) p n h ms : same_but_low c d ->
  agree (fun a b => snd a = snd b) (sf_run fuel s (mkSF c p n h) ms) (sf_run fuel s (mkSF d p n h) ms).
Proof. intros H. apply sf_run_low. unfold sf_same. cbn. auto. Qed.
Print Assumptions C107_unread.
Theorem C107_unread_filter {F : Type} {NF : Num F} fuel (k : cfconf F) (c d : cfilter F) ms : same_but_low c d ->
  agree same_but_low (cf_run fuel k c ms) (cf_run fuel k d ms).
Proof. apply run_low. Qed.
Print Assumptions C107_unread_filter.

(** every axis of the low-passed accelerometer is the smoothing of that axis of
    the accelerometer samples, whatever else arrives; likewise the magnetometer *)
Theorem C107_smoothed fuel (k : cfconf RX) c c' ms i v vs : cf_run fuel k c ms = Ok c' ->
  (let acc := filter (of_type ACCELEROMETER) ms in
   coord i (cf_acc c) = x2 v -> map (coord i) acc = map (fun x => x2 x) vs ->
   coord i (cf_acc c') = x2 (smoothed (st_ts (cf_acc c)) v (combine (map (fun m => st_ts m) acc) vs))) /\
  (let mag := filter (of_type MAGNETOMETER) ms in
   coord i (cf_magn c) = x2 v -> map (coord i) mag = map (fun x => x2 x) vs ->
   coord i (cf_magn c') = x2 (smoothed (st_ts (cf_magn c)) v (combine (map (fun m => st_ts m) mag) vs))).
Proof.
  intros E. apply run_fold in E. destruct E as [E1 E2]. cbv zeta. rewrite E1, E2. split; intros; apply fold_coord; assumption.
Qed.
Print Assumptions C107_smoothed.
(** smoothing stays within the range of the samples, and forgets the old value
    under a constant input by the product of the weights, at least 2 percent a sample *)
Theorem C107_range lo hi t v ms : (lo <= v <= hi)%R -> Forall (fun m => (lo <= snd m <= hi)%R) ms -> (lo <= smoothed t v ms <= hi)%R.
Proof. intros Hv H. apply smoothed_range; assumption. Qed.
Print Assumptions C107_range.
Theorem C107_forgets c t v ts : (smoothed t v (map (fun s => (s, c)) ts) - c = damping t ts * (v - c))%R /\
  (Rabs (smoothed t v (map (fun s => (s, c)) ts) - c) <= / (1 + 2 / 100) ^ List.length ts * Rabs (v - c))%R.
Proof.
  assert (E := smoothed_const c ts t v). split; [exact E|]. rewrite E, Rabs_mult. destruct (damping_range ts t) as [D1 D2].
  rewrite (Rabs_right (damping t ts)) by lra. apply Rmult_le_compat_r; [apply Rabs_pos|exact D2].
Qed.
Print Assumptions C107_forgets.
(** a second after a sample the old value counts half; 10 ms later as much as 20 ms later *)
Example C107_example : smoothed 0 10 [(1000%Z, 20%R); (1010%Z, 20%R)] = (20 - 5 / (102 / 100))%R /\
  old_weight 10 = old_weight 20.
Proof.
  unfold smoothed, old_weight. cbv zeta.
  change (1000 - 0)%Z with 1000%Z. change (1010 - 1000)%Z with 10%Z.
  rewrite (Rmax_left (1000 / 1000)) by lra. rewrite (Rmax_right (10 / 1000)) by lra. rewrite (Rmax_right (20 / 1000)) by lra. split; field.
Qed.
Example C107_unread_example : let c := @cf0 SF nf (mkSt (mkSensor MAGNETOMETER (@v0 SF nf)) 0) (mkSt (mkSensor ACCELEROMETER (@v0 SF nf)) 0) in
  let d := @cf0 SF nf (mkSt (mkSensor MAGNETOMETER (@v0 SF nf)) 7) (mkSt (mkSensor BAROMETER (@v0 SF nf)) 9) in
  same_but_low c d /\ cf_acc c <> cf_acc d.
Proof. cbv zeta. split; [repeat split|]. intros H. discriminate H. Qed.

(** ** C108: tables of the fingerprints *)
(** the map of a level holds the entries of the last level of that name, in
    the order of the points *)
Theorem C108_radio_map {F : Type} (c : collector F) id :
  match alookup id (levels_rmaps c) with
  | Some rm => exists l, last_level (col_levels c) id l /\ forall tx, equal_range rm tx = entries l tx
  | None => Forall (fun l => l_id l <> id) (col_levels c)
  end.
Proof.
  unfold levels_rmaps. rewrite Pf_Level.mset_lookup_fold. cbn [alookup]. pose proof (find_rev (col_levels c) id) as H.
  destruct (find _ _) as [l|]; [|exact H]. exists l. split; [exact H|]. intros tx. apply equal_range_entries.
Qed.
Print Assumptions C108_radio_map.
(** the transmitters of a level are those of all levels of that name *)
Theorem C108_transmitters {F : Type} (c : collector F) id tx :
  (In tx (mget [] id (ref_txs c)) <-> exists l, In l (col_levels c) /\ l_id l = id /\ mentions l tx) /\
  (In id (map fst (ref_txs c)) <-> exists l y, In l (col_levels c) /\ l_id l = id /\ mentions l y).
Proof.
  split; [apply ref_txs_in|]. rewrite ref_txs_keys. split.
  - intros [y H]. apply ref_txs_in in H. destruct H as (l & H). exists l, y. exact H.
  - intros (l & y & H). exists y. apply ref_txs_in. exists l. exact H.
Qed.
Print Assumptions C108_transmitters.
(** with different names the two tables agree: a transmitter is listed exactly
    if the map has an entry for it *)
Theorem C108_agree {F : Type} (c : collector F) id tx : NoDup (map (fun l => l_id l) (col_levels c)) ->
  (In tx (mget [] id (ref_txs c)) <-> exists rm, alookup id (levels_rmaps c) = Some rm /\ equal_range rm tx <> []).
Proof.
  intros ND. rewrite ref_txs_in.
  assert (M : forall l : level F, mentions l tx <-> entries l tx <> []).
  { intros l. unfold mentions, entries. split.
    - intros (rp & Hr & Ht) E. apply in_map_iff in Ht. destruct Ht as ([k st] & Hk & Hi). cbn in Hk. subst k.
      assert (X : In (rp_id rp, st) []); [|destruct X]. rewrite <- E. apply in_flat_map. exists rp. split; [exact Hr|].
      apply in_map_iff. exists (tx, st). split; [reflexivity|]. apply filter_In. split; [exact Hi|]. cbn. apply String.eqb_refl.
    - intros N. destruct (flat_map _ _) as [|e r] eqn:E in N; [congruence|].
      assert (X : In e (e :: r)) by (left; reflexivity). rewrite <- E in X. apply in_flat_map in X. destruct X as (rp & Hr & X).
      apply in_map_iff in X. destruct X as ([k st] & _ & X). apply filter_In in X. destruct X as [Hi Hk]. apply String.eqb_eq in Hk. cbn in Hk. subst k.
      exists rp. split; [exact Hr|]. apply in_map_iff. exists (tx, st). auto. }
  split.
  - intros (l & Hl & <- & Hm). exists (level_rmap l). split; [apply Pf_Level.levels_rmaps_lookup; assumption|].
    rewrite equal_range_entries. apply M. exact Hm.
  - intros (rm & E & N). pose proof (C108_radio_map c id) as H. rewrite E in H. destruct H as (l & Hl & He). exists l.
    split; [eapply last_level_in; exact Hl|]. split; [destruct Hl as (? & ? & _ & Q & _); exact Q|]. apply M. rewrite <- He. exact N.
Qed.
Print Assumptions C108_agree.
Definition ex_rm (id : string) (txs : list string) : level SF :=
  let l := @ex_L1 SF nf in
  mkLevel id (l_bind l) [] (mkRM [mkRP "p" (mkXY (@f0 SF nf) (@f0 SF nf)) (map (fun t => (t, @mkSS SF TBEACON (@f0 SF nf) (@f0 SF nf) 1)) txs)] []) (l_box l) (l_allowed l) (l_graph l).
Example C108_example : let c := mkCol [ex_rm "A" ["t"; "u"]; ex_rm "B" ["v"]] [] in
  NoDup (map (fun l => l_id l) (col_levels c)) /\ mget [] "A" (ref_txs c) = ["t"; "u"] /\
  option_map (fun rm => map fst (equal_range rm "u")) (alookup "A" (levels_rmaps c)) = Some ["p"].
Proof.
  cbv zeta. split; [cbn; constructor; [intros [H|[]]; discriminate H|constructor; [intros []|constructor]]|]. split; vm_compute; reflexivity.
Qed.
(** with two levels of one name they do not: the transmitter of the first level
    is listed, and the map has no entry for it *)
Theorem C108_same_name_refuted : exists (c : collector SF) id tx,
  In tx (mget [] id (ref_txs c)) /\ exists rm, alookup id (levels_rmaps c) = Some rm /\ equal_range rm tx = [].
Proof.
  exists (mkCol [ex_rm "A" ["t"]; ex_rm "A" ["u"]] []), "A", "t". split; [left; reflexivity|].
  eexists. split; [reflexivity|]. reflexivity.
Qed.
Print Assumptions C108_same_name_refuted.
