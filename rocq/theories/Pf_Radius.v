(** The radius reported with a fix (C89). *)
From Coq Require Import Lia.
From Verif Require Import Base Num Lib LevelModel Client Spec_Preproc Spec_Client Spec_Radius
  Pf_Level Pf_Preproc Pf_Client Pf_ClientInv Pf_ClientThrow Pf_ClientTop Pf_Radio Pf_Place Pf_Num.
Set Implicit Arguments.
Local Open Scope string_scope.
Local Open Scope list_scope.

Ltac dif_goal := match goal with |- context [if ?b then _ else _] => destruct b eqn:? end.

Section Radius.
Context {F : Type} {NF : Num F} {SO : Sorter}.
Context (k : config F) (G : list (measurement F)).
Context (HZ : is_knn (cf_set k) = false -> forall l, In l (col_levels (cf_col k)) ->
  exists A B, mget (f0, f0) (l_id l) (kt_zone (cf_kt k)) = (A, B) /\ In (l_id l, (A, B)) (s_levels (cf_set k))).
Context (HST : s_stops (cf_set k) = false).
Notation s := (cf_set k).
Notation col := (cf_col k).

(** a stored position whose radius is known to be one of those allowed *)
Definition est (p : position F) : Prop := p_empty p = true \/ estimated s (p_dev p) /\ p_prov p = INDOOR.
Definition gn (p : position F) : Prop := p_empty p = true \/ gnss_radius s G (p_dev p) /\ p_prov p = GNSS.
(** its source is GNSS unless there has been an indoor estimate *)
Definition src (o : post F) (p : position F) : Prop := p_empty p = true \/ p_prov p = GNSS \/ p_empty (po_in o) = false.
Definition fine_pos (p : position F) : Prop := p_empty p = true \/ estimated s (p_dev p) \/ p_prov p = GNSS /\ (p_dev p = f0 \/ gnss_radius s G (p_dev p)).
Definition sen (d : sensor F) : Prop := s_type d = LOCATION -> exists m, In m G /\ st_data m = MSensor d.

Lemma zone_est l ts rs st p : is_knn s = false -> In l (col_levels col) -> zone_position (kt_zone (cf_kt k)) l ts rs = Ok (st, p) -> est p.
Proof.
  intros Hk Hl H. unfold zone_position in H. destruct rs as [|r0 rs]; [injection H as <- <-; left; reflexivity|].
  destruct (level_radio l (r0 :: rs)) as [|m0 rest]; [injection H as <- <-; left; reflexivity|].
  cbv zeta in H. inv_bind H. destruct (HZ Hk l Hl) as (A & B & Ez & Hi). rewrite Ez in Hb. apply Ok_inj, pair_equal_spec in Hb. destruct Hb as [<- <-].
  right. split; [|reflexivity]. cbn [p_dev]. unfold estimated. unfold is_knn in Hk. destruct (s_algo s); [..|discriminate]; eexists _, A, B, _; (split; [exact Hi|reflexivity]).
Qed.
Lemma indoor_est mp l ts rs kn st p : In l (col_levels col) -> est mp -> indoor k mp l ts rs = Ok (kn, (st, p)) -> est kn /\ est p.
Proof.
  intros Hl Hm H. unfold indoor in H. assert (Ek : is_knn s = true \/ is_knn s = false) by (clear; destruct (is_knn s); auto). destruct Ek as [Ek|Ek]; rewrite Ek in H.
  - assert (E : forall q, est (mkPos (px q) (py q) (l_id l) f1 ts false INDOOR f0)).
    { intros q. right. split; [|reflexivity]. unfold estimated. cbn. unfold is_knn in Ek. destruct (s_algo s); try discriminate. reflexivity. }
    unfold knn_position in H. destruct rs as [|r rs']; [injection H as <- <- <-; auto|].
    inv_bind H. destruct (Nat.ltb _ _); [injection Hb as <- <- <-; auto|]. inv_bind Hb. cbv zeta in Hb0. destruct (s_triangles s).
    + destruct (alookup (l_id l) (kt_tris _)) as [[|t ts']|]; [injection Hb0 as <- <- <-; auto| |injection Hb0 as <- <- <-; auto].
      inv_bind Hb0. injection Hb as <- <- <-. auto.
    + inv_bind Hb0. injection Hb as <- <- <-. auto.
  - inv_bind H. destruct a as [st1 p1]. injection Hb as <- <- <-. split; [exact Hm|]. eapply zone_est; eassumption.
Qed.
Lemma outdoor_gn o ts m n fl o' p : sen (st_data m) -> gn (ou_last o) -> outdoor_position s col o ts m n fl = Ok (o', p) -> gn (ou_last o') /\ gn p.
Proof.
  intros Hs Ho H. unfold outdoor_position in H. cbv zeta in H.
  set (oo := if fl || _ then _ else o) in H.
  assert (E : ou_last oo = ou_last o) by (unfold oo; destruct (fl || _); reflexivity).
  assert (G0 : gn pos0) by (left; reflexivity).
  unfold gps_of in H. unfold sen in Hs. destruct (s_type (st_data m)) eqn:Et;
    try (dif H; injection H as <- <-; rewrite E; auto; fail).
  destruct (find _ _) as [l|] eqn:Ef; [|injection H as <- <-; rewrite E; auto].
  inv_bind H. destruct a as [buf valid].
  dif Hb; apply Ok_inj, pair_equal_spec in Hb; destruct Hb as [<- <-]; cbn [ou_last]; [rewrite E; auto|].
  destruct (Hs eq_refl) as (m' & Hi & Hd). split; right; (split; [|reflexivity]); exists m', (st_data m); auto.
Qed.

Definition all_src (o : post F) : Prop := src o (tm_prev (po_time o)) /\ src o (tm_next (po_time o)) /\
  match po_sm o with SAB a => src o (ab_pos a) | SLsq _ => True end.
Definition in_rad (o : post F) : Prop := (p_empty (po_in o) = true /\ p_dev (po_in o) = f0) \/ (p_empty (po_in o) = false /\ est (po_in o)).
Lemma src_prov (o : post F) p q : src o p -> p_empty q = p_empty p -> p_prov q = p_prov p -> src o q.
Proof. unfold src. intros H -> ->. exact H. Qed.
Lemma smooth_src o al sm p sm' r : (match sm with SAB a => src o (ab_pos a) | SLsq _ => True end) -> src o p ->
  sm_smooth s al sm p = Ok (sm', r) -> (match sm' with SAB a => src o (ab_pos a) | SLsq _ => True end) /\ src o r.
Proof.
  intros Hs Hp H. destruct sm as [a|q]; cbn [sm_smooth] in H.
  - destruct (ab_smooth s al a p) as [a' p'] eqn:E. injection H as <- <-. unfold ab_smooth in E. cbv zeta in E.
    dif E; [|injection E as <- <-; auto]. dif E; [injection E as <- <-; auto|].
    assert (Ha : a' = mkAB (ab_called a') (ab_vx a') (ab_vy a') p') by (injection E as <- <-; reflexivity).
    assert (Hq : src o p').
    { injection E as _ <-. repeat match goal with |- context [if ?b then _ else _] => destruct b end; exact Hp. }
    rewrite Ha. auto.
  - inv_bind H. destruct a as [q' p']. injection Hb as <- <-. split; [exact I|]. unfold lsq_smooth in Ha. dif Ha; [injection Ha as <- <-; exact Hp|].
    cbv zeta in Ha. inv_bind Ha. inv_bind Hb. destruct (pf_predict _ a _) as [fx xs]. destruct (pf_predict _ a0 _) as [fy ys].
    dif Hb0; [injection Hb0 as <- <-; exact Hp|]. apply Ok_inj, pair_equal_spec in Hb0. destruct Hb0 as [_ <-]. destruct (fisfinite xs && fisfinite ys); exact Hp.
Qed.
Lemma time_src o m p ts m' r : src o (tm_prev m) -> src o (tm_next m) -> src o p -> time_smooth m p ts = (m', r) ->
  src o (tm_prev m') /\ src o (tm_next m') /\ src o r.
Proof.
  intros A B C H. unfold time_smooth in H. dif H; [injection H as <- <-; auto|]. dif H; [injection H as <- <-; auto|].
  dif H; [injection H as <- <-; auto|]. cbv zeta in H.
  set (m1 := if (_ <? _)%Z then _ else m) in H.
  assert (M : src o (tm_prev m1) /\ src o (tm_next m1)) by (unfold m1; dif_goal; auto). destruct M as [M1 M2]. clearbody m1.
  dif H; [injection H as <- <-; auto|]. dif H; injection H as <- <-; auto.
Qed.
Lemma processed_rad pc o f ts lm l o' p : all_src o -> src o f -> in_rad o -> processed s pc o f ts lm l = Ok (o', p) ->
  po_in o' = po_in o /\ all_src o' /\ fine_pos p.
Proof.
  intros (S1 & S2 & S3) Hf Hi H. unfold processed in H. cbv zeta in H.
  assert (P0 : fine_pos pos0) by (left; reflexivity).
  dif H; [injection H as <- <-; repeat split; auto|]. dif H; [injection H as <- <-; repeat split; auto|].
  dif H; [injection H as <- <-; repeat split; auto|]. inv_bind H. destruct a as [sm r]. cbn [po_sm po_last po_time po_in po_out po_idev po_odev] in *.
  assert (Q : (match sm with SAB a => src o (ab_pos a) | SLsq _ => True end) /\ src o r).
  { destruct (s_usesmooth s); [|injection Ha as <- <-; auto]. eapply smooth_src; [|exact Hf|exact Ha]. dif_goal; [|exact S3].
    destruct (po_sm o); cbn; auto. }
  destruct Q as [Q1 Q2].
  destruct (if s_timesmooth s then _ else _) as [tm r1] eqn:Et.
  assert (Q : src o (tm_prev tm) /\ src o (tm_next tm) /\ src o r1).
  { destruct (s_timesmooth s); [|injection Et as <- <-; auto]. eapply time_src; [exact S1|exact S2|exact Q2|exact Et]. }
  destruct Q as (Q3 & Q4 & Q5).
  unfold hold_or_move in Hb. rewrite HST in Hb. cbn [andb po_in] in Hb. inv_bind Hb. rename a into la. injection Hb0 as <- <-.
  assert (Q : p_empty la = p_empty r1 /\ p_prov la = p_prov r1 /\ p_dev la = p_dev (po_in o)).
  { unfold project in Ha0. destruct (s_graphproj s); [|injection Ha0 as <-; auto]. inv_bind Ha0. injection Hb as <-. dif_goal; auto. }
  destruct Q as (L1 & L2 & L3). split; [reflexivity|]. split; [repeat split; cbn; auto|].
  unfold fine_pos. cbn [clamp_round pos_set_xy p_empty p_dev p_prov]. rewrite L1, L2, L3.
  destruct Q5 as [Q5|[Q5|Q5]]; [left; exact Q5| |].
  - destruct Hi as [[H1 H2]|[H1 [H2|[H2 _]]]]; [right; right; rewrite H2; auto|congruence|right; left; exact H2].
  - destruct Hi as [[H1 H2]|[H1 [H2|[H2 _]]]]; [congruence|congruence|right; left; exact H2].
Qed.

(** ** The client *)
Lemma keeps_post pc o f ts lm l o' p : processed s pc o f ts lm l = Ok (o', p) -> po_in o' = po_in o /\ po_out o' = po_out o /\ True.
Proof.
  intros H. unfold processed in H. cbv zeta in H. dif H; [injection H as <- <-; cbn; auto|]. dif H; [injection H as <- <-; cbn; auto|].
  dif H; [injection H as <- <-; cbn; auto|]. inv_bind H. destruct a as [sm r]. destruct (if s_timesmooth s then _ else _) as [tm r1].
  destruct (hold_or_move _ _ _ _ _ _) as [la ex]. inv_bind Hb. injection Hb0 as <- <-. cbn. auto.
Qed.
Record rad (c : client F) : Prop := mkRad {
  ra_sen : sen (st_data (pp_sensor (c_pre c))); ra_ou : gn (ou_last (c_outd c)); ra_knn : est (c_knn c);
  ra_in : in_rad (c_post c); ra_out : gn (po_out (c_post c)); ra_src : all_src (c_post c); ra_pos : fine_pos (c_pos c) }.
Lemma update_sen p m p' : sen (st_data (pp_sensor p)) -> In m G -> update_measurements s col p m = Ok p' -> sen (st_data (pp_sensor p')).
Proof.
  intros Hp Hm H. unfold update_measurements in H. cbv zeta in H. destruct (st_data m) as [r|d|d] eqn:E.
  - inv_bind H. dif Hb; injection Hb as <-; exact Hp.
  - injection H as <-. cbn. intros _. eauto.
  - injection H as <-. exact Hp.
Qed.
Lemma src_in o o' p : (p_empty (po_in o) = false -> p_empty (po_in o') = false) -> src o p -> src o' p.
Proof. unfold src. intuition. Qed.
Lemma rad_step e c m c' o : rad c -> In m G -> nav_step e k c m = Ok (c', o) -> rad c' /\ (o_status o = OK -> radius_of s G o).
Proof.
  intros N Hm H. destruct (nav_step_inv _ _ _ _ H) as (pre & sf & mi & pre1 & rs & det & lev & lid & outd & outp & oc & ns
    & H1 & H2 & H3 & H4 & H5 & H6 & H7 & H8 & ->).
  destruct (extract_radio_keeps _ _ _ _ _ H3) as (K1 & K2 & K3 & K4).
  apply update_sen in H1; [|apply N|exact Hm].
  apply outdoor_gn in H6; [|exact H1|apply N]. destruct H6 as [O1 O2].
  assert (R : rad (mkClient lev (oc_knn oc) pre1 outd (oc_post oc) sf (c_states c ++ [ns]) (oc_pos oc) (oc_flag oc) (oc_ph oc) (oc_pg oc))).
  { unfold locate in H7. destruct (has_level col _) eqn:Eh.
    - inv_bind H7. rename a into l. assert (Hl := get_level_in _ _ Ha). clear Ha. inv_bind Hb. destruct a as [kn [st inp]].
      destruct (fuse_positions s (c_post c) _ inp outp st) as [po f] eqn:Ef. inv_bind Hb0. destruct a as [[[az azv] ph] pg].
      inv_bind Hb. destruct a as [po1 p]. injection Hb0 as <-. cbn [oc_knn oc_post oc_pos oc_flag oc_ph oc_pg].
      apply indoor_est in Ha; [|exact Hl|apply N]. destruct Ha as [I1 I2].
      assert (Fo : po_out po = if p_empty outp then po_out (c_post c) else outp).
      { unfold fuse_positions in Ef. injection Ef as <- _. unfold fill_states. destruct (p_empty inp), (p_empty outp); reflexivity. }
      assert (Fi : po_in po = if p_empty inp then po_in (c_post c) else inp).
      { unfold fuse_positions in Ef. injection Ef as <- _. unfold fill_states. destruct (p_empty inp), (p_empty outp); reflexivity. }
      assert (Fm : po_time po = po_time (c_post c) /\ po_sm po = po_sm (c_post c)).
      { unfold fuse_positions in Ef. injection Ef as <- _. unfold fill_states. destruct (p_empty inp), (p_empty outp); auto. }
      assert (Ri : in_rad po).
      { unfold in_rad. rewrite Fi. destruct (p_empty inp) eqn:Ei; [apply N|right; auto]. }
      assert (Ro : gn (po_out po)) by (rewrite Fo; destruct (p_empty outp); [apply N|exact O2]).
      assert (Mono : p_empty (po_in (c_post c)) = false -> p_empty (po_in po) = false).
      { rewrite Fi. destruct (p_empty inp) eqn:Ei; auto. }
      assert (Sa : all_src po).
      { destruct (ra_src N) as (A1 & A2 & A3). destruct Fm as [F1 F2]. unfold all_src. rewrite F1, F2.
        split; [eapply src_in; [exact Mono|exact A1]|]. split; [eapply src_in; [exact Mono|exact A2]|]. destruct (po_sm (c_post c)); [eapply src_in; [exact Mono|exact A3]|exact I]. }
      assert (Sg : forall q, gn q -> src po q) by (intros q [Hq|[_ Hq]]; [left|right; left]; exact Hq).
      assert (Sf : src po f).
      { unfold fuse_positions in Ef. assert (Eo : fill_states s (c_post c) inp outp = po) by (injection Ef; auto).
        rewrite Eo in Ef. injection Ef as <-. unfold fused.
        dif_goal; [apply Sg, O2|]. assert (Hin : p_empty (po_in po) = true \/ p_empty (po_in po) = false) by (destruct (p_empty (po_in po)); auto).
        assert (Si : src po (po_in po)) by (destruct Hin as [Hin|Hin]; [left; exact Hin|right; right; exact Hin]).
        dif_goal; [apply andb_true_iff in Heqb0; destruct Heqb0 as [Hq _]; apply andb_true_iff in Hq; destruct Hq as [_ Hq];
          apply negb_true_iff in Hq; rewrite Hq in Fi; right; right; rewrite Fi; exact Hq|].
        dif_goal; [exact Si|]. dif_goal; [apply Sg, Ro|]. cbv zeta. dif_goal; [apply Sg, Ro|]. dif_goal; [exact Si|].
        dif_goal; [right; right; assumption|]. dif_goal; [exact Si|apply Sg, Ro]. }
      assert (Hc1 := Ha1). apply processed_rad in Ha1; [|assumption..]. destruct Ha1 as (P1 & P2 & P3). assert (Ko : po_out po1 = po_out po) by exact (proj1 (proj2 (keeps_post _ _ _ _ _ _ Hc1))). constructor; cbn [c_pre c_outd c_knn c_post c_pos]; try assumption; [rewrite K3; exact H1|unfold in_rad; rewrite P1; exact Ri|rewrite Ko; exact Ro].
    - assert (Q : oc_knn oc = c_knn c /\ oc_post oc = c_post c /\ fine_pos (oc_pos oc)).
      { destruct (p_empty outp) eqn:Eo; cbn [negb] in H7; injection H7 as <-; cbn [oc_knn oc_post oc_pos].
        - split; [reflexivity|]. split; [reflexivity|]. apply N.
        - split; [reflexivity|]. split; [reflexivity|]. destruct O2 as [O2|[O2 O3]]; [left; exact O2|]. right. right. auto. }
      destruct Q as (Q1 & Q2 & Q3). rewrite Q1, Q2. destruct N.
      constructor; cbn [c_pre c_outd c_knn c_post c_pos]; try assumption. rewrite K3. exact H1. }
  split; [exact R|]. intros Ho. destruct (p_empty (oc_pos oc)) eqn:Ee.
  { unfold output in H8. rewrite Ee in H8. injection H8 as <-. cbn in Ho. destruct (oc_stat oc); discriminate. }
  assert (Q := ra_pos R). cbn [c_pos] in Q.
  unfold output in H8. rewrite Ee in H8. inv_bind H8. destruct a as [[la lo] al]. inv_bind Hb. injection Hb0 as <-.
  exists (p_dev (oc_pos oc)). split; [reflexivity|]. cbn [o_prov]. destruct Q as [Q|[Q|[Q1 Q2]]]; [congruence|left; exact Q|]. right. rewrite Q1. auto.
Qed.
Lemma history_rad e g bs c' os : s_type (st_data (g_sensor g)) <> LOCATION -> Forall (Forall (fun m => In m G)) bs ->
  navigate_all e k (client0 g s) bs = Ok (c', os) -> Forall (Forall (fun o => o_status o = OK -> radius_of s G o)) os.
Proof.
  intros Hg Hb H. refine (proj2 (@history_on _ _ _ e k (fun m => In m G) rad (fun o => o_status o = OK -> radius_of s G o) _ _ bs _ _ _ _ Hb H)).
  - intros c l []. constructor; auto.
  - intros c m c1 o. apply rad_step.
  - assert (E0 : forall o, src o pos0) by (intros o; left; reflexivity).
    constructor; cbn.
    + intros Q. destruct (Hg Q).
    + left; reflexivity.
    + left; reflexivity.
    + left; split; reflexivity.
    + left; reflexivity.
    + repeat split; cbn; auto. destruct (s_abfilter s); cbn; auto.
    + left; reflexivity.
Qed.
End Radius.

Lemma radius_history {F : Type} {NF : Num F} {SO : Sorter} e (s : settings F) gs k g bs c os :
  built s gs k -> s_stops s = false -> s_type (st_data (g_sensor g)) <> LOCATION ->
  navigate_all e k (client0 g s) bs = Ok (c, os) ->
  Forall (Forall (fun o => o_status o = OK -> radius_of s (List.concat bs) o)) os.
Proof.
  intros B Hs Hg H. assert (Es : cf_set k = s) by apply (built_ids B).
  assert (HZ : is_knn (cf_set k) = false -> forall l, In l (col_levels (cf_col k)) ->
    exists A B, mget (f0, f0) (l_id l) (kt_zone (cf_kt k)) = (A, B) /\ In (l_id l, (A, B)) (s_levels (cf_set k))).
  { destruct B as (cl & _ & HB). unfold mk_config in HB. inv_bind HB. inv_bind Hb. inv_bind Hb0. inv_bind Hb. injection Hb0 as Ek.
    subst k. cbn [cf_set cf_col cf_kt kt_zone] in *. intros Hk l Hl. rewrite Hk in Ha. unfold zone_tables in Ha.
    apply zone_tables_in in Ha. destruct (proj1 Ha (l_id l) (in_map _ _ _ Hl)) as [E1 E2].
    unfold mget. rewrite E1. destruct (alookup (l_id l) (s_levels _)) as [[A B]|] eqn:E; [|congruence].
    apply alookup_In in E. eauto. }
  rewrite <- Es in *.
  apply (@history_rad F NF SO k (List.concat bs) HZ) with (e := e) (g := g) (bs := bs) (c' := c); try assumption.
  apply Forall_forall. intros b Hb. apply Forall_forall. intros m Hm. apply in_concat. eauto.
Qed.
