(** Fixes of the fingerprint estimator without GNSS lie among the reference points and the origin (C100). *)
From Coq Require Import Lia Reals Lra Permutation.
From Verif Require Import Base Lib NumReal LibR NumOrd Client Spec_Preproc Spec_Level Spec_Client Spec_Post Spec_Knn Spec_Geo Spec_Num Spec_Place Spec_PlaceK
  Pf_Level Pf_Preproc Pf_Client Pf_ClientInv Pf_ClientThrow Pf_ClientTop Pf_Post Pf_ClientUB Pf_Geo Pf_Knn Pf_KnnEst Pf_Place Pf_Num.
Set Implicit Arguments.
Local Open Scope R_scope.

Lemma fingerprints_mapped (l : level RX) id : fingerprints l id <> [] -> mapped l id.
Proof.
  unfold fingerprints. destruct (flat_map _ _) as [|x t] eqn:E; [congruence|]. intros _.
  assert (I : In x (flat_map (fun rp => map snd (filter (fun e => String.eqb (fst e) id) (rp_fp rp))) (rm_points (l_rm l))))
    by (rewrite E; left; reflexivity).
  apply in_flat_map in I. destruct I as (r & H1 & H2). apply in_map_iff in H2. destruct H2 as (e & _ & H2).
  apply filter_In in H2. destruct H2 as [H2 H3]. apply String.eqb_eq in H3. exists r. split; [exact H1|]. rewrite <- H3. apply in_map, H2.
Qed.

Section K.
Context {SO : Sorter}.
(** the estimator: the old answer, or a place in the rectangle *)
Lemma knn_among (s : settings RX) (kt : ktables RX) (mpos mp p : position RX) (l : level RX) ts ms st (K : rect) :
  in_rect K 0 0 ->
  (s_triangles s = true -> Forall real_radio ms /\ l_rm l = mk_radiomap (rm_points (l_rm l)) /\ spans K l /\
     forall rm, alookup (l_id l) (kt_rmaps kt) = Some rm -> real_map rm) ->
  knn_position s kt mpos l ts ms = Ok (mp, (st, p)) ->
  (mp = mpos /\ p = mpos) \/
  (mp = p /\ p_level p = l_id l /\ exists x y, p_x p = Some x /\ p_y p = Some y /\ in_rect K x y).
Proof.
  intros H0 Ht H. destruct (s_triangles s) eqn:Es.
  - destruct (Ht eq_refl) as (Hm & Hl & Hs & Hk). clear Ht.
    assert (Hp : forall r, In r (rm_points (l_rm l)) -> exists x y, rp_pt r = mkXY (Some x : RX) (Some y : RX)).
    { intros r Hr. destruct (Hs r Hr) as (x & y & E1 & E2 & _). exists x, y. destruct (rp_pt r). cbn in E1, E2. congruence. }
    set (kt' := mkKT (match alookup (l_id l) (kt_rmaps kt) with Some rm => [(l_id l, rm)] | None => [] end) (kt_refs kt) (kt_tris kt) (kt_zone kt)).
    assert (E : knn_position s kt mpos l ts ms = knn_position s kt' mpos l ts ms).
    { unfold knn_position, kt'. cbn [kt_rmaps kt_refs kt_tris]. destruct (alookup (l_id l) (kt_rmaps kt)) as [rm|]; [|reflexivity].
      cbn [alookup]. rewrite String.eqb_refl. reflexivity. }
    rewrite E in H. assert (Hk' : tables_real kt').
    { intros id rm. unfold kt'. cbn [kt_rmaps]. destruct (alookup (l_id l) (kt_rmaps kt)) as [rm'|] eqn:E'; [|discriminate].
      cbn [alookup]. destruct (String.eqb id (l_id l)); [|discriminate]. intros X; injection X as <-. apply Hk. reflexivity. }
    destruct (@knn_estimate SO s _ mpos mp p l _ ts ms st Es Hm Hk' Hl Hp H) as [(_ & A & B)|(_ & A & ids & rm & tris & t & x & y & _ & _ & _ & _ & W)]; [left; auto|].
    right. split; [exact A|]. cbv zeta in W. destruct W as (_ & _ & -> & C). split; [reflexivity|]. exists x, y. split; [reflexivity|]. split; [reflexivity|].
    destruct C as [(-> & -> & _)|(a & b & c & x1 & y1 & x2 & y2 & x3 & y3 & P1 & P2 & P3 & A1 & A2 & A3 & A4 & _ & _ & _ & -> & ->)]; [exact H0|].
    assert (Q : forall id u v, point_named (rm_points (l_rm l)) id = Some (mkXY (Some u : RX) (Some v : RX)) -> in_rect K u v).
    { intros id u v. unfold point_named. destruct (find _ _) as [r|] eqn:Ef; [|discriminate]. intros X; injection X as X.
      apply find_some in Ef. destruct (Hs r (proj1 Ef)) as (u' & v' & E1 & E2 & I). rewrite X in E1, E2. cbn in E1, E2. congruence. }
    apply Q in P1, P2, P3. unfold in_rect in *. nra.
  - clear Ht. assert (C : (mp = mpos /\ p = mpos) \/ (mp = p /\ st = OK)).
    { unfold knn_position in H. destruct ms as [|m0 mt]; [injection H as <- _ <-; auto|].
      inv_bind H. destruct (Nat.ltb _ _); [injection Hb as <- _ <-; auto|]. inv_bind Hb. rewrite Es in Hb0. inv_bind Hb0.
      apply Pf_Radio.Ok_inj, pair_equal_spec in Hb. destruct Hb as [<- Hb]. apply pair_equal_spec in Hb. destruct Hb as [<- <-]. auto. }
    destruct C as [C|[E ->]]; [left; exact C|].
    apply knn_zero in H; [|rewrite rx_f0; change (@feps RX num_real) with (Some (/ IZR (2 ^ 52)) : RX); rewrite rx_ltb; apply Rltb_true; apply Rinv_0_lt_compat, IZR_lt; reflexivity|exact Es]. right. split; [exact E|]. rewrite H. cbn [p_level p_x p_y].
    split; [reflexivity|]. exists 0, 0. rewrite rx_f0. auto.
Qed.
End K.

Section PlaceK.
Context {SO : Sorter}.
Context (k : config RX) (L : level RX) (K : rect).
Context (HS : sound k) (HL : In L (col_levels (cf_col k)))
  (HK : on_map L K) (H0 : in_rect K 0 0) (Hknn : is_knn (cf_set k) = true)
  (Htri : s_triangles (cf_set k) = true -> real_level L /\ spans K L)
  (Hgr : s_graphproj (cf_set k) = false)
  (Hsm : (s_usesmooth (cf_set k) = false /\ s_timesmooth (cf_set k) = false) \/ one_spot K).
Notation s := (cf_set k).
Notation col := (cf_col k).
Definition alone (i : string) : Prop := forall l', In l' (col_levels col) -> mapped l' i -> l' = L.
Definition fit (r : radio RX) : Prop := alone (r_id r) /\ (s_triangles s = true -> real_radio r).
Definition input_ok (m : measurement RX) : Prop := maps_only col L m /\ (s_triangles s = true -> real_measurement m).

Lemma detect_atK rs det : Forall fit rs -> detect k rs = Ok det -> lev_at L det.
Proof.
  intros Hr H. unfold detect, use_rm_level in H. rewrite Hknn, orb_true_r, (sd_rmaps HS) in H.
  destruct (detect_rm_best (s_bestrp s) col rs (proj1 (sd_wf HS))) as (r & Er & sc & _ & [[-> _]|(l & H1 & H2 & _ & (m & Hm & H4) & _)]);
    rewrite Er in H; injection H as <-; [left; reflexivity|].
  right. rewrite Forall_forall in Hr. destruct (Hr m Hm) as [A _]. rewrite H2. f_equal. apply A; [exact H1|apply fingerprints_mapped, H4].
Qed.
Lemma indoor_atK mp ts rs kn st p : Forall fit rs -> sits L K mp -> indoor k mp L ts rs = Ok (kn, (st, p)) -> sits L K kn /\ sits L K p.
Proof.
  intros Hr Hm H. unfold indoor in H. rewrite Hknn in H. apply (@knn_among SO s (cf_kt k) mp kn p L ts rs st K H0) in H.
  - destruct H as [[-> ->]|(-> & H)]; [auto|]. assert (sits L K p) by (right; exact H). auto.
  - intros T. destruct (Htri T) as [R1 R2]. split; [|split; [apply R1|split; [exact R2|]]].
    + apply Forall_forall. intros r Hi. rewrite Forall_forall in Hr. apply (Hr r Hi), T.
    + intros rm E. rewrite (sd_rmaps HS), (levels_rmaps_lookup _ _ (proj1 (sd_wf HS)) HL) in E. injection E as <-. apply R1.
Qed.

Record at_placeK (c : client RX) : Prop := mkAtK {
  ak_buf : Forall (fun m => fit (st_data m)) (b_ms (pp_buf (c_pre c)));
  ak_sen : s_type (st_data (pp_sensor (c_pre c))) <> LOCATION;
  ak_lev : lest_at L (c_lev c); ak_outd : ou_last (c_outd c) = pos0; ak_knn : sits L K (c_knn c);
  ak_post : post_at L K (c_post c); ak_pos : rounded L K (c_pos c) }.
Lemma atK0 g : s_type (st_data (g_sensor g)) <> LOCATION -> at_placeK (client0 g s).
Proof.
  intros Hg. constructor; cbn; auto using sits0.
  - split; [left; reflexivity|]. split; [left; reflexivity|]. discriminate.
  - constructor; cbn; auto using sits0. intros _. destruct (s_abfilter s); cbn; [|split; left; split; reflexivity].
    split; [apply sits0|]. split; [discriminate|]. auto.
  - left. reflexivity.
Qed.
Lemma update_atK p m p' : input_ok m -> Forall (fun m => fit (st_data m)) (b_ms (pp_buf p)) ->
  s_type (st_data (pp_sensor p)) <> LOCATION -> update_measurements s col p m = Ok p' ->
  Forall (fun m => fit (st_data m)) (b_ms (pp_buf p')) /\ s_type (st_data (pp_sensor p')) <> LOCATION.
Proof.
  intros [Hm Hr] Hb Hs H. unfold update_measurements in H. unfold maps_only in Hm. unfold real_measurement in Hr. destruct (st_data m) as [r|d|d].
  - inv_bind H. destruct a; injection Hb0 as <-; cbn; [|auto]. split; [|exact Hs].
    unfold buffer_add. cbn. apply Forall_app. split; [exact Hb|]. apply Forall_cons; [|apply Forall_nil]. split; [exact Hm|].
    intros T. destruct (Hr T) as [[x Hx] Hp]. split; cbn; [rewrite Hx; eexists; reflexivity|exact Hp].
  - injection H as <-. cbn. auto.
  - injection H as <-. cbn. auto.
Qed.
Lemma extract_ids s' bc c' (p : preproc RX) lm p' rs : extract_radio s' bc c' p lm = Ok (p', rs) ->
  incl (b_ms (pp_buf p')) (b_ms (pp_buf p)) /\ pp_sensor p' = pp_sensor p /\
  forall r, In r rs -> exists m, In m (b_ms (pp_buf p)) /\ r_id (st_data m) = r_id r.
Proof.
  intros H. unfold extract_radio in H. destruct (buffer_extract bc (pp_buf p) lm) as [b out] eqn:E.
  inv_bind H. rename a into sel. inv_bind Hb. injection Hb0 as <- <-. cbn [pp_buf pp_sensor].
  split; [|split; [reflexivity|]].
  - assert (I := buffer_incl bc (pp_buf p) lm). rewrite E in I. exact I.
  - assert (Ho : forall r, In r out -> exists m, In m (b_ms (pp_buf p)) /\ r_id (st_data m) = r_id r).
    { intros r Hr. destruct (Z.lt_ge_cases (b_cur (pp_buf p) - b_last (pp_buf p)) (bc_shift bc)) as [T|T].
      - destruct (extract_gated bc (pp_buf p) lm T) as (E1 & _). rewrite E in E1. cbn in E1. subst out. destruct Hr.
      - destruct (extract_averages bc (pp_buf p) lm T) as (_ & Ha2 & _). rewrite E in Ha2. cbn [snd] in Ha2.
        exact (proj1 (Ha2 (r_id r)) (in_map _ _ _ Hr)). }
    assert (Hs : incl sel out).
    { destruct (s_closest s') eqn:Ec.
      - destruct (closest_spec s' out Ec Ha) as (dr & P & _). intros r Hr. apply (Permutation_in _ (Permutation_sym P)), in_or_app. auto.
      - unfold closest_aps in Ha. rewrite Ec in Ha. injection Ha as <-. apply incl_refl. }
    apply mapM_forall2 in Ha0. intros r Hr.
    assert (G : exists x, In x sel /\ r_id x = r_id r).
    { clear -Ha0 Hr. induction Ha0 as [|x y l l' H H1 IH]; [destruct Hr|]. destruct (set_distance_keeps _ _ _ H) as [E _].
      destruct Hr as [<-|Hr]; [exists x; split; [left; reflexivity|auto]|]. destruct (IH Hr) as (z & Z1 & Z2). exists z. split; [right; exact Z1|exact Z2]. }
    destruct G as (x & X1 & X2). rewrite <- X2. apply Ho, Hs, X1.
Qed.
Lemma extract_atK p lm p' rs : Forall (fun m => fit (st_data m)) (b_ms (pp_buf p)) ->
  extract_radio s (cf_buf k) col p lm = Ok (p', rs) ->
  Forall (fun m => fit (st_data m)) (b_ms (pp_buf p')) /\ Forall fit rs /\ pp_sensor p' = pp_sensor p.
Proof.
  intros Hb H. destruct (extract_ids _ _ _ _ _ H) as (I1 & I2 & I3). rewrite Forall_forall in Hb.
  split; [apply Forall_forall; intros m Hm; apply Hb, I1, Hm|]. split; [|exact I2].
  apply Forall_forall. intros r Hr. split.
  - destruct (I3 r Hr) as (m & Hm & <-). apply (Hb m Hm).
  - intros T. apply extract_real in H.
    + destruct H as [_ H]. rewrite Forall_forall in H. apply H, Hr.
    + apply Forall_forall. intros m Hm. apply (Hb m Hm), T.
Qed.
Lemma locate_atK c ts lid rs mi oc : at_placeK c -> lev_at L lid -> Forall fit rs ->
  locate k c ts lid rs pos0 mi = Ok oc -> sits L K (oc_knn oc) /\ post_at L K (oc_post oc) /\ rounded L K (oc_pos oc).
Proof.
  intros Ac Hl Hr H. assert (HW := sd_wf HS). assert (HN := sd_noempty HS). unfold locate in H. destruct (has_level col lid) eqn:Eh.
  - destruct Hl as [->| ->]; [congruence|]. inv_bind H. apply (get_L k L HW HL) in Ha. subst a. inv_bind Hb. destruct a as [kn [st inp]].
    destruct (fuse_positions _ _ _ _ _ _) as [po f] eqn:Ef. inv_bind Hb0. destruct a as [[[az azv] ph] pg].
    inv_bind Hb. destruct a as [po1 p]. injection Hb0 as <-. cbn [oc_post oc_pos oc_knn].
    destruct (indoor_atK _ Hr (ak_knn Ac) Ha) as [G0 G]. apply (@fuse_at k L K) in Ef; [|apply Ac|exact G]. destruct Ef as [G1 G2].
    split; [exact G0|]. eapply (@processed_at k L K HW HN HL HK Hgr Hsm); [exact G1|exact G2|exact Ha1].
  - cbn [negb p_empty pos0] in H. injection H as <-. cbn. destruct Ac. auto.
Qed.
Lemma atK_step e c m c' o : at_placeK c -> input_ok m -> nav_step e k c m = Ok (c', o) ->
  at_placeK c' /\ (o_status o = OK -> fix_in L K o).
Proof.
  intros Ac Hm H. assert (HW := sd_wf HS). assert (HN := sd_noempty HS).
  destruct (nav_step_inv _ _ _ _ H) as (pre & sf & mi & pre1 & rs & det & lev & lid & outd & outp & oc & ns
    & H1 & H2 & H3 & H4 & H5 & H6 & H7 & H8 & ->).
  apply update_atK in H1; [|exact Hm|apply Ac|apply Ac]. destruct H1 as [U1 U2].
  apply extract_atK in H3; [|exact U1]. destruct H3 as (X1 & X2 & X3).
  apply detect_atK in H4; [|exact X2]. apply (@level_at L) in H5; [|apply Ac|exact H4]. destruct H5 as [V1 V2].
  apply (@outdoor_at k) in H6; [|exact U2|apply Ac]. destruct H6 as [O1 ->].
  apply locate_atK in H7; [|exact Ac|apply drop_at; exact V2|exact X2]. destruct H7 as (P0 & P1 & P2). split.
  - constructor; cbn; auto. rewrite X3. exact U2.
  - intros Ho. destruct (p_empty (oc_pos oc)) eqn:Ee.
    { unfold output in H8. rewrite Ee in H8. injection H8 as <-. cbn in Ho. destruct (oc_stat oc); discriminate. }
    destruct (output_status _ _ _ _ _ _ HW H8 Ee) as (_ & Q1 & _ & _ & Q2).
    destruct P2 as [P2|(P2 & x & y & Px & Py & Pb)]; [congruence|].
    split; [congruence|]. destruct Q2 as (l & L1 & L2 & L3); [rewrite P2; apply (@L_named k L HW HN HL)|].
    assert (l = L) by (apply (@same_id k L HW HL); congruence). subst l. exists x, y. rewrite L3, Px, Py. auto.
Qed.
Lemma atK_history e bs c c' os : at_placeK c -> Forall (Forall input_ok) bs ->
  navigate_all e k c bs = Ok (c', os) -> at_placeK c' /\ Forall (Forall (fun o => o_status o = OK -> fix_in L K o)) os.
Proof.
  apply history_on; [intros c0 l []; constructor; auto|]. intros c0 m c1 o H1 H2 H3. eapply atK_step; eassumption.
Qed.
End PlaceK.

Theorem placeK {SO : Sorter} (e : env RX) (s : settings RX) (gs : list (geolevel RX)) (k : config RX) (l : level RX) (r : rect)
    (g : garbage RX) (bs : list (list (measurement RX))) (c : client RX) (os : list (list (noutput RX))) :
  built s gs k -> NoDup (map (@gl_id RX) gs) -> ~ In ""%string (map (@gl_id RX) gs) -> In l (col_levels (cf_col k)) -> on_map l r ->
  in_rect r 0 0 -> s_algo s = KNN -> s_graphproj s = false ->
  (s_usesmooth s = false /\ s_timesmooth s = false) \/ one_spot r ->
  (s_triangles s = true -> Forall real_geolevel gs /\ spans r l /\ Forall (Forall real_measurement) bs) ->
  s_type (st_data (g_sensor g)) <> LOCATION -> Forall (Forall (maps_only (cf_col k) l)) bs ->
  navigate_all e k (client0 g s) bs = Ok (c, os) ->
  Forall (Forall (fun o => o_status o = OK -> fix_in l r o)) os.
Proof.
  intros B N1 N2 Hl Hm H0 Ha Hg Hs Ht Hgs Hb H. destruct (built_sound B N1 N2) as [HS Es]. rewrite <- Es in *.
  assert (Hk : is_knn (cf_set k) = true) by (unfold is_knn; rewrite Ha; reflexivity).
  eapply (@atK_history SO k l r HS Hl Hm H0 Hk) with (bs := bs); [|exact Hg|exact Hs|apply atK0, Hgs| |exact H].
  - intros T. destruct (Ht T) as (G1 & G2 & _). split; [|exact G2]. eapply built_levels_real; eassumption.
  - apply Forall_forall. intros b Hi. apply Forall_forall. intros m Hj. split.
    + rewrite Forall_forall in Hb. specialize (Hb b Hi). rewrite Forall_forall in Hb. apply Hb, Hj.
    + intros T. destruct (Ht T) as (_ & _ & G). rewrite Forall_forall in G. specialize (G b Hi). rewrite Forall_forall in G. apply G, Hj.
Qed.

(** ** Without triangles every answer is the origin *)
Section Zero.
Context {SO : Sorter}.
Context (k : config RX).
Context (HS : sound k)
  (HB : forall l, In l (col_levels (cf_col k)) -> exists x1 y1, 0 <= x1 /\ 0 <= y1 /\ real_box (l_box l) 0 0 x1 y1)
  (Hknn : is_knn (cf_set k) = true) (Htri : s_triangles (cf_set k) = false) (Hgr : s_graphproj (cf_set k) = false).
Notation s := (cf_set k).
Notation col := (cf_col k).
Definition zp (p : position RX) : Prop := p_x p = Some 0 /\ p_y p = Some 0 /\ (p_empty p = false -> p_level p <> ""%string).
Lemma zp0 : zp pos0. Proof. split; [reflexivity|]. split; [reflexivity|]. discriminate. Qed.
Lemma zp_xy p x y : zp p -> x = Some 0 -> y = Some 0 -> zp (pos_set_xy p x y).
Proof. intros (_ & _ & H) -> ->. split; [reflexivity|]. split; [reflexivity|exact H]. Qed.

Definition zsm (m : smoother RX) : Prop :=
  match m with
  | SAB a => zp (ab_pos a) /\ (ab_vx a = None \/ ab_vx a = Some 0) /\ (ab_vy a = None \/ ab_vy a = Some 0)
  | SLsq q => fit_at 0 (lq_x q) /\ fit_at 0 (lq_y q)
  end.
Lemma zsmooth al m p m' r : zsm m -> zp p -> sm_smooth s al m p = Ok (m', r) -> zsm m' /\ zp r.
Proof.
  intros Hm Hp H. assert (Hp' := Hp). destruct Hp' as (Hx & Hy & Hl). destruct m as [a|q]; cbn [sm_smooth] in H.
  - destruct (ab_smooth s al a p) as [a1 p1] eqn:E. injection H as <- <-.
    destruct Hm as (Ho & Vx & Vy). unfold ab_smooth in E. destruct (_ <? _)%Z; [|injection E as <- <-; cbn; auto].
    cbv zeta in E. destruct (negb _ || _); [injection E as <- <-; cbn; auto|].
    destruct Ho as (Ox & Oy & _).
    replace (p_x (ab_pos a)) with (p_x p) in E by congruence. replace (p_y (ab_pos a)) with (p_y p) in E by congruence.
    set (t := fofZ _ /! fofZ 1000) in E. assert (Et : exists tr, t = Some tr) by (unfold t; rewrite rdiv1000; eauto). clearbody t.
    set (g := ab_gain _ _ _) in E. clearbody g. set (b := g *! g /! _) in E. clearbody b.
    set (bt := b /! _) in E. clearbody bt.
    assert (A : forall v w x : RX, v = None \/ v = Some 0 -> (exists r, w = Some r) -> x = w +! v *! t -> (x +! g *! (w -! x) = None \/
      x +! g *! (w -! x) = w) /\ (v +! bt *! (w -! x) = None \/ v +! bt *! (w -! x) = Some 0)).
    { destruct Et as [tr ->]. intros v w x [->| ->] [r ->] ->; [split; left; reflexivity|]. rewrite rx_mul, rx_add, rx_sub.
      split; [destruct g as [g|]|destruct bt as [bt|]]; try (left; reflexivity); right; rewrite rx_mul, rx_add; f_equal; ring. }
    destruct (A (ab_vx a) (p_x p) _ Vx (ex_intro _ _ Hx) eq_refl) as [Ax Bx].
    destruct (A (ab_vy a) (p_y p) _ Vy (ex_intro _ _ Hy) eq_refl) as [Ay By].
    set (xs := _ +! g *! (p_x p -! _)) in *. set (ys := _ +! g *! (p_y p -! _)) in *.
    set (vx := ab_vx a +! bt *! _) in *. set (vy := ab_vy a +! bt *! _) in *. clearbody xs ys vx vy.
    destruct (_ || _ || _); [injection E as <- <-; cbn; auto|]. injection E as <- <-. cbn [ab_pos ab_called ab_vx ab_vy zsm].
    assert (P : zp (if fisfinite xs && fisfinite ys then pos_set_xy p xs ys else p)).
    { destruct (fisfinite xs && fisfinite ys) eqn:Ef; [|auto]. apply andb_prop in Ef. destruct Ef as [F1 F2].
      destruct Ax as [->| ->]; [discriminate|]. destruct Ay as [->| ->]; [discriminate|]. apply zp_xy; assumption. }
    destruct (s_accsmooth s); cbn; auto.
  - inv_bind H. destruct a as [q1 p1]. injection Hb as <- <-. cbn [zsm] in Hm. destruct Hm as [Fx Fy]. cbn [zsm].
    unfold lsq_smooth in Ha. destruct (negb _); [injection Ha as <- <-; cbn; auto|]. cbv zeta in Ha.
    rewrite Hx, Hy in Ha. inv_bind Ha. inv_bind Hb.
    destruct (fit_add _ _ Fx Ha0) as (ux & X1 & X2). destruct (fit_add _ _ Fy Ha) as (uy & Y1 & Y2).
    destruct (predict_one (lsq_conf s) a (fofZ (p_ts p - lq_start q) /! fofZ 1000) X1 X2) as (fx & E1 & X3 & X4).
    destruct (predict_one (lsq_conf s) a0 (fofZ (p_ts p - lq_start q) /! fofZ 1000) Y1 Y2) as (fy & E2 & Y3 & Y4).
    rewrite E1, E2 in Hb0. destruct (_ && _).
    + injection Hb0 as <- <-. cbn [lq_x lq_y]. auto using fit_clear.
    + injection Hb0 as <- <-. cbn [lq_x lq_y]. split; [split; right; eauto|]. cbn [fisfinite num_real andb]. apply zp_xy; auto.
Qed.
Lemma ztime m p ts m' r : zp (tm_prev m) -> zp (tm_next m) -> zp p ->
  time_smooth m p ts = (m', r) -> zp (tm_prev m') /\ zp (tm_next m') /\ zp r.
Proof.
  intros Hp Hn Hr H. unfold time_smooth in H.
  destruct (ts <? _)%Z; [injection H as <- <-; auto|].
  destruct (negb (String.eqb _ _) || _); [injection H as <- <-; auto|].
  destruct (_ || _ || _); [injection H as <- <-; auto|].
  set (mm := if (_ <? _)%Z then _ else m) in H. cbv zeta in H.
  assert (Hm : zp (tm_prev mm) /\ zp (tm_next mm)) by (unfold mm; destruct (_ <? _)%Z; auto).
  destruct Hm as (M1 & M2).
  destruct (Z.eqb_spec (p_ts (tm_next mm)) (p_ts (tm_prev mm))) as [Ez|Ez]; [injection H as <- <-; auto|].
  destruct (_ <! _); [injection H as <- <-; auto|]. injection H as <- <-. split; [exact M1|]. split; [exact M2|].
  assert (M1' := M1). assert (M2' := M2). destruct M1' as (X1 & Y1 & _). destruct M2' as (X2 & Y2 & _).
  assert (Q : forall (v w : RX) a b, v = Some 0 -> w = Some 0 -> b <> 0%Z ->
    (v *! fofZ a +! w *! (fofZ b -! fofZ a)) /! fofZ b = Some 0).
  { clear. intros v w a b -> -> Hb. rewrite !rx_ofZ, rx_sub, !rx_mul, rx_add, rx_div by (intros E; apply Hb, eq_IZR; exact E). f_equal.
    field. intros E; apply Hb, eq_IZR; exact E. }
  assert (N : (p_ts (tm_next mm) - p_ts (tm_prev mm))%Z <> 0%Z) by (clear -Ez; lia).
  apply (@zp_xy (tm_next mm)); [exact M2|apply Q; assumption..].
Qed.

Record zpost (o : post RX) : Prop := mkZP {
  zo_in : zp (po_in o); zo_out : po_out o = pos0; zo_last : zp (po_last o);
  zo_prev : zp (tm_prev (po_time o)); zo_next : zp (tm_next (po_time o)); zo_sm : zsm (po_sm o) }.
Lemma zfuse o ts pin st o' f : zpost o -> zp pin -> fuse_positions s o ts pin pos0 st = (o', f) -> zpost o' /\ zp f.
Proof.
  intros Hp Hi H. unfold fuse_positions in H. injection H as <- <-.
  assert (Hfp : zpost (fill_states s o pin pos0)).
  { destruct Hp. unfold fill_states. cbn [p_empty pos0]. destruct (p_empty pin); constructor; cbn; auto. }
  split; [exact Hfp|]. unfold fused. rewrite (zo_out Hfp). cbn [p_empty pos0 negb]. rewrite andb_false_r.
  destruct (_ && _); [exact Hi|]. rewrite orb_true_r. apply Hfp.
Qed.
Lemma zround l p : In l (col_levels col) -> zp p -> zp (clamp_round (l_box l) p).
Proof.
  intros Hl Hp. destruct (HB l Hl) as (x1 & y1 & P1 & P2 & (B1 & B2 & B3 & B4)). assert (Hp' := Hp). destruct Hp' as (Hx & Hy & _).
  unfold clamp_round. rewrite B1, B2, B3, B4, Hx, Hy, !clamp_real, !round2_real.
  assert (E : forall v, 0 <= v -> IZR (Int_part (Rmin (Rmax 0 0) v * 100)) / 100 = 0).
  { intros v Hv. rewrite Rmax_left by lra. rewrite Rmin_left by exact Hv. rewrite Rmult_0_l. assert (Z : Int_part 0 = 0%Z).
    { destruct (base_Int_part 0) as [A1 A2]. apply le_IZR in A1. assert (IZR (-1) < IZR (Int_part 0)) by lra. apply lt_IZR in H. lia. }
    rewrite Z. lra. }
  apply zp_xy; [exact Hp|rewrite E by assumption; reflexivity..].
Qed.
Lemma zprocessed pc o f ts lm l o' p : In l (col_levels col) -> zpost o -> zp f -> processed s pc o f ts lm l = Ok (o', p) -> zpost o' /\ zp p.
Proof.
  intros Hl Ho Hf H. unfold processed in H. cbv zeta in H.
  destruct (p_empty f) eqn:Ee; [injection H as <- <-; destruct Ho; split; [constructor; auto|apply zp0]|].
  destruct (negb _); [injection H as <- <-; destruct Ho; split; [constructor; auto|apply zp0]|].
  destruct (_ <=? _)%Z; [injection H as <- <-; destruct Ho; split; [constructor; auto|apply zp0]|].
  cbn [po_last po_sm po_time po_idev po_odev po_in po_out] in H.
  inv_bind H. destruct a as [sm r].
  assert (Hr : zsm sm /\ zp r).
  { destruct (s_usesmooth s) eqn:Eu; [|injection Ha as <- <-; split; [apply Ho|exact Hf]].
    eapply zsmooth; [|exact Hf|exact Ha]. destruct (negb _); [|apply Ho]. destruct (po_sm o); cbn; auto using fit_clear. }
  destruct Hr as [Hsm' Hr].
  set (tr := if s_timesmooth s then _ else _) in Hb.
  assert (Htm : zp (tm_prev (fst tr)) /\ zp (tm_next (fst tr)) /\ zp (snd tr)).
  { unfold tr. destruct (s_timesmooth s) eqn:Et; [|cbn; destruct Ho; auto].
    destruct (time_smooth (po_time o) r ts) as [tm1 r1] eqn:E. cbn. eapply ztime; [apply Ho|apply Ho|exact Hr|exact E]. }
  destruct tr as [tm r1]. cbn [fst snd] in Htm. destruct Htm as (Ht1 & Ht2 & Hr1).
  set (hm := hold_or_move _ _ _ _ _ _) in Hb.
  assert (Hh : zp (fst hm)).
  { unfold hm, hold_or_move. cbv zeta. cbn [po_last po_extr po_in].
    destruct (_ && _); [destruct (_ && _)|]; cbn; [exact Hr1|exact (zo_last Ho)|exact Hr1]. }
  destruct hm as [last extr]. cbn [fst] in Hh. unfold project in Hb. rewrite Hgr in Hb. cbn [bind] in Hb.
  injection Hb as <- <-. assert (R := zround _ Hl Hh). split; [|exact R]. destruct Ho. constructor; cbn; auto.
Qed.
Record zclient (c : client RX) : Prop := mkZC {
  zc_sen : s_type (st_data (pp_sensor (c_pre c))) <> LOCATION;
  zc_outd : ou_last (c_outd c) = pos0; zc_knn : zp (c_knn c); zc_post : zpost (c_post c); zc_pos : zp (c_pos c) }.
Lemma zclient0 g : s_type (st_data (g_sensor g)) <> LOCATION -> zclient (client0 g s).
Proof.
  intros Hg. constructor; cbn; auto using zp0. constructor; cbn; auto using zp0.
  destruct (s_abfilter s); cbn; [|split; left; split; reflexivity]. split; [apply zp0|]. auto.
Qed.
Lemma zlocate c ts lid rs mi oc : zclient c -> locate k c ts lid rs pos0 mi = Ok oc -> zp (oc_knn oc) /\ zpost (oc_post oc) /\ zp (oc_pos oc).
Proof.
  intros Ac H. unfold locate in H. destruct (has_level col lid) eqn:Eh.
  - inv_bind H. rename a into l. assert (Hl := get_level_in _ _ Ha). inv_bind Hb. destruct a as [kn [st inp]].
    destruct (fuse_positions _ _ _ _ _ _) as [po f] eqn:Ef. inv_bind Hb0. destruct a as [[[az azv] ph] pg].
    inv_bind Hb. destruct a as [po1 p]. injection Hb0 as <-. cbn [oc_post oc_pos oc_knn].
    assert (G : zp kn /\ zp inp).
    { unfold indoor in Ha0. rewrite Hknn in Ha0. apply (@knn_among SO s (cf_kt k) (c_knn c) kn inp l ts rs st (spot 0 0)) in Ha0.
      - destruct Ha0 as [[-> ->]|(-> & E1 & x & y & E2 & E3 & E4)]; [split; apply Ac|].
        assert (Z : zp inp); [|auto]. unfold in_rect, spot in E4. cbn in E4.
        split; [rewrite E2; f_equal; lra|]. split; [rewrite E3; f_equal; lra|]. intros _. rewrite E1.
        intros E. assert (X := @known_has k (sd_wf HS) l Hl). rewrite E in X. rewrite (sd_noempty HS) in X. discriminate.
      - unfold in_rect, spot. cbn. lra.
      - intros T. congruence. }
    destruct G as [G0 G]. apply zfuse in Ef; [|apply Ac|exact G]. destruct Ef as [G1 G2].
    split; [exact G0|]. eapply zprocessed; [exact Hl|exact G1|exact G2|exact Ha2].
  - cbn [negb p_empty pos0] in H. injection H as <-. cbn. destruct Ac. auto.
Qed.
Definition at_origin (o : noutput RX) : Prop := exists l, In l (col_levels col) /\ o_level o = l_id l /\
  mkGeo (o_lat o) (o_lon o) = local_to_gps (mkXY (Some 0) (Some 0)) (l_bind l).
Lemma zstep e c m c' o : zclient c -> no_gnss m -> nav_step e k c m = Ok (c', o) -> zclient c' /\ (o_status o = OK -> at_origin o).
Proof.
  intros Ac Hm H. assert (HW := sd_wf HS).
  destruct (nav_step_inv _ _ _ _ H) as (pre & sf & mi & pre1 & rs & det & lev & lid & outd & outp & oc & ns
    & H1 & H2 & H3 & H4 & H5 & H6 & H7 & H8 & ->).
  assert (U2 : s_type (st_data (pp_sensor pre)) <> LOCATION).
  { unfold update_measurements in H1. unfold no_gnss in Hm. destruct (st_data m) as [r|d|d].
    - inv_bind H1. destruct a; injection Hb as <-; cbn; apply Ac.
    - injection H1 as <-. exact Hm.
    - injection H1 as <-. apply Ac. }
  destruct (extract_ids _ _ _ _ _ H3) as (_ & X3 & _).
  apply (@outdoor_at k) in H6; [|exact U2|apply Ac]. destruct H6 as [O1 ->].
  apply zlocate in H7; [|exact Ac]. destruct H7 as (P0 & P1 & P2). split.
  - constructor; cbn; auto. rewrite X3. exact U2.
  - intros Ho. destruct (p_empty (oc_pos oc)) eqn:Ee.
    { unfold output in H8. rewrite Ee in H8. injection H8 as <-. cbn in Ho. destruct (oc_stat oc); discriminate. }
    destruct (output_status _ _ _ _ _ _ HW H8 Ee) as (_ & Q1 & _ & _ & Q2).
    destruct P2 as (Px & Py & Pl). destruct Q2 as (l & L1 & L2 & L3); [apply Pl, Ee|].
    exists l. split; [exact L1|]. split; [congruence|]. rewrite L3, Px, Py. reflexivity.
Qed.
Lemma zhistory e bs c c' os : zclient c -> Forall (Forall no_gnss) bs ->
  navigate_all e k c bs = Ok (c', os) -> zclient c' /\ Forall (Forall (fun o => o_status o = OK -> at_origin o)) os.
Proof.
  apply history_on; [intros c0 l []; constructor; auto|]. intros c0 m c1 o H1 H2 H3. eapply zstep; eassumption.
Qed.
End Zero.

Theorem knn_corner {SO : Sorter} (e : env RX) (s : settings RX) (gs : list (geolevel RX)) (k : config RX)
    (g : garbage RX) (bs : list (list (measurement RX))) (c : client RX) (os : list (list (noutput RX))) :
  built s gs k -> NoDup (map (@gl_id RX) gs) -> ~ In ""%string (map (@gl_id RX) gs) -> Forall plain_box gs ->
  s_algo s = KNN -> s_triangles s = false -> s_graphproj s = false ->
  s_type (st_data (g_sensor g)) <> LOCATION -> Forall (Forall no_gnss) bs ->
  navigate_all e k (client0 g s) bs = Ok (c, os) ->
  Forall (Forall (fun o => o_status o = OK -> at_corner gs o)) os.
Proof.
  intros B N1 N2 Hp Ha Ht Hg Hs Hb H. assert (B' := B). destruct (built_sound B N1 N2) as [HS Es]. rewrite <- Es in *.
  assert (Hk : is_knn (cf_set k) = true) by (unfold is_knn; rewrite Ha; reflexivity).
  assert (Hf : forall l, In l (col_levels (cf_col k)) -> exists g, In g gs /\ local_level g = Ok l).
  { destruct B' as (cc & Hc & Hm). unfold mk_config in Hm. inv_bind Hm. inv_bind Hb0. inv_bind Hb1. inv_bind Hb0. injection Hb1 as <-.
    intros l Hl. cbn in Hl. destruct (add_levels_from gs _ _ Hc Hl) as [[]|(q & A1 & A2)]. eauto. }
  rewrite Forall_forall in Hp.
  assert (G : Forall (Forall (fun o => o_status o = OK -> at_origin k o)) os).
  { eapply (@zhistory SO k HS); [|exact Hk|exact Ht|exact Hg|apply zclient0, Hs|exact Hb|exact H].
    intros l Hl. destruct (Hf l Hl) as (q & Q1 & Q2). destruct (Hp q Q1) as (la1 & lo1 & la2 & lo2 & Gb & _). eapply geolevel_box; eassumption. }
  eapply Forall_impl; [|exact G]. intros o1 F1. eapply Forall_impl; [|exact F1]. intros o Ho Hok.
  destruct (Ho Hok) as (l & L1 & L2 & L3). destruct (Hf l L1) as (q & Q1 & Q2). exists q. split; [exact Q1|].
  assert (El : l_id l = gl_id q /\ l_bind l = get_binding q).
  { unfold local_level in Q2. inv_bind Q2. injection Hb0 as <-. split; reflexivity. }
  destruct El as [E1 E2]. split; [congruence|]. intros la1 lo1 la2 lo2 Hbx.
  destruct (Hp q Q1) as (la1' & lo1' & la2' & lo2' & [Gb _] & R1 & R2 & R3 & R4).
  assert (Eq : la1' = la1 /\ lo1' = lo1 /\ la2' = la2 /\ lo2' = lo2).
  { destruct Gb as (A1 & A2 & A3 & A4), Hbx as (D1 & D2 & D3 & D4). rewrite D1 in A1. rewrite D2 in A2. rewrite D3 in A3. rewrite D4 in A4.
    injection A1. injection A2. injection A3. injection A4. auto. }
  destruct Eq as (-> & -> & -> & ->).
  assert (Eb : get_binding q = rx_geo (Rmin la1 la2, Rmin lo1 lo2)).
  { assert (C := correct_real Gb). destruct C as (A & D & _ & _). unfold get_binding. rewrite A, D. reflexivity. }
  rewrite E2, Eb in L3. change (mkXY (Some 0) (Some 0)) with (rx_pt (0, 0)) in L3. rewrite local_to_gps_real in L3.
  - cbn [fst snd] in L3. injection L3 as -> ->. rewrite Rmult_0_l, Rplus_0_l. split; [reflexivity|]. f_equal.
    unfold Rdiv. rewrite !Rmult_0_l, Rplus_0_l.
    assert (Hr : -180 < Rmin lo1 lo2 <= 180) by (unfold Rmin; destruct (Rle_dec lo1 lo2); lra).
    destruct (rnorm_cases (Rmin lo1 lo2)) as [[X ->]|[[X ->]|[X ->]]]; lra.
  - apply circ_nonzero. cbn. unfold Rmin. destruct (Rle_dec la1 la2); lra.
Qed.
