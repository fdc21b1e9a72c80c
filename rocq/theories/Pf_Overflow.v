(** Proofs for C96. *)
From Coq Require Import Lia.
From Verif Require Import Lib Overflow Spec_Overflow Spec_Sensors Pf_Sensors Pf_Client Pf_Motion Pf_Radio.
Set Implicit Arguments.
Local Open Scope Z_scope.

Section Overflow.
Context {F : Type} {NF : Num F} {SO : Sorter}.
Context (lo hi : Z) (Hlo : lo <= -1) (Hhi : 0 <= hi) (Hspan : hi - lo < 2 ^ 63).

Definition T (z : Z) : Prop := lo <= z <= hi.
Lemma T0 : T 0. Proof. unfold T. lia. Qed.
Lemma Tm1 : T (-1). Proof. unfold T. lia. Qed.
Lemma fits_sub a b : T a -> T b -> fits (I64 (a - b)).
Proof. unfold T, fits, in64. lia. Qed.
Hint Resolve T0 Tm1 fits_sub : core.

Lemma scan_fits A (ts : A -> Z) a c (l : list A) : T a -> Forall (fun x => T (ts x)) l -> Forall fits (scan_ints (fun x => a - ts x) c l).
Proof. intros Ha. induction 1 as [|x t Hx Ht IH]; cbn [scan_ints]; constructor; auto. destruct (c _); auto. Qed.

(** the pedometer *)
Record ok_ped (p : pedometer F) : Prop := {
  kp_inv : ped_inv p;
  kp_acc : Forall (fun m => T (st_ts m)) (pd_acc p);
  kp_mags : Forall (fun m => T (mg_ts m)) (pd_mags p);
  kp_possible : T (pd_possible p) }.

Lemma ped0_ok : ok_ped ped0.
Proof. constructor; cbn; auto. apply ped0_inv. Qed.

Lemma ped_update_fits p m : ok_ped p -> T (st_ts m) -> Forall fits (ped_update_ints p m).
Proof.
  intros [_ H1 _ _] Hm. unfold ped_update_ints. destruct (s_type (st_data m)); auto.
  assert (Forall (fun m => T (st_ts m)) (pd_acc p ++ [m])) by (apply Forall_app; auto).
  rewrite !Forall_app. repeat split; apply scan_fits; auto.
Qed.

Lemma sum_fits l : Forall (fun t => 300 < t < 2000) l -> forall a, 0 <= a -> a + 2000 * Z.of_nat (List.length l) < 2 ^ 31 -> Forall fits (sum_ints a l).
Proof.
  induction 1 as [|x t Hx Ht IH]; intros a Ha Hb; cbn [sum_ints List.length] in *; constructor; [cbn; unfold in64; lia|].
  constructor; [cbn; unfold in32; lia|]. apply IH; lia.
Qed.

Lemma step_update (p : pedometer F) m p1 : ped_update p m = Ok p1 -> ped_step p m = ped_steps p1.
Proof. intros E. unfold ped_step. rewrite E. reflexivity. Qed.

Lemma update_ok_ped p m p1 : ok_ped p -> T (st_ts m) -> ped_update p m = Ok p1 ->
  pd_times p1 = pd_times p /\ pd_possible p1 = pd_possible p /\ pd_steptime p1 = pd_steptime p /\
  pd_size p1 = Nat.max (List.length (pd_mags p)) 1 /\
  Forall (fun m => T (st_ts m)) (pd_acc p1) /\ Forall (fun m => T (mg_ts m)) (pd_mags p1) /\
  (List.length (pd_mags p1) <= S (List.length (pd_mags p)))%nat.
Proof.
  intros [_ H1 H2 _] Hm E. destruct (update_ok p m) as (p1' & E' & Hn & Hs & Ht & Hpo & Hst & Hna & Ha). rewrite E in E'. apply Ok_inj in E'. subst p1'.
  do 4 (split; [assumption|]). split; [|].
  - destruct (s_type (st_data m)) eqn:Et; try (destruct (Hna ltac:(discriminate)) as [-> _]; exact H1).
    destruct (Ha eq_refl) as (a & b & -> & E2 & _). apply Forall_app. split; [|auto]. rewrite E2 in H1. apply Forall_app in H1. tauto.
  - destruct Hn as [->|(g & -> & Hg & _)]; [split; [assumption|lia]|]. split; [|rewrite app_length; cbn; lia]. apply Forall_app. split; [assumption|].
    constructor; [|constructor]. rewrite Hg. exact Hm.
Qed.

Lemma loop_fits mags (tb : F) is : Forall (fun m => T (mg_ts m)) mags -> forall r,
  (forall a b c d, r = Ok (a, b, c, d) -> T a /\ T b) -> Forall fits (ped_loop_ints mags tb r is).
Proof.
  intros HM. rewrite Forall_forall in HM. induction is as [|i t IH]; intros r Hr; cbn [ped_loop_ints]; [auto|].
  destruct r as [[[[a b] c] d]| | |]; auto. destruct (Hr _ _ _ _ eq_refl) as [Ta Tb]. apply Forall_app. split.
  - unfold ped_body_ints. destruct (nth_error mags i) as [cur|] eqn:E; [|auto]. destruct (nth_error mags (i - 1)); [|auto].
    assert (Tc : T (mg_ts cur)) by (apply HM; eapply nth_error_In; eassumption).
    destruct (_ && _); [|auto]. constructor; [auto|]. destruct (_ && _); [|auto]. constructor; [cbn; unfold in64; lia|].
    apply Forall_app. split; [|auto]. apply scan_fits; [exact Tc|]. apply Forall_forall. intros x Hx. apply HM. apply in_rev in Hx.
    rewrite <- (firstn_skipn i mags). apply in_or_app. auto.
  - apply IH. intros a' b' c' d' E. unfold ped_body in E. cbn [bind] in E. destruct i as [|j]; [discriminate|].
    destruct (nth_error mags (S j)) as [cur|] eqn:E1; [|discriminate]. destruct (nth_error mags j); [|discriminate].
    assert (Tc : T (mg_ts cur)) by (apply HM; eapply nth_error_In; eassumption).
    destruct (_ && _); apply Ok_inj in E; rewrite !pair_equal_spec in E; destruct E as [[[<- <-] _] _]; auto.
Qed.

Lemma back_in A (l : list A) x : back l = Some x -> In x l.
Proof. unfold back. destruct (rev l) eqn:E; cbn; intros H; [discriminate|]. injection H as <-. apply in_rev. rewrite E. left; reflexivity. Qed.

Lemma ped_steps_fits p : Forall (fun t => 300 < t < 2000) (pd_times p) -> (List.length (pd_times p) <= 50)%nat ->
  Forall (fun m => T (mg_ts m)) (pd_mags p) -> T (pd_possible p) -> T (pd_steptime p) -> Forall fits (ped_steps_ints p).
Proof.
  intros H1 H2 H3 H4 H5. unfold ped_steps_ints. destruct (Nat.leb _ 3); [auto|]. apply Forall_app. split.
  { destruct (5 <=? _); [|auto]. apply sum_fits; [exact H1|lia|lia]. }
  apply Forall_app. split.
  { apply loop_fits; [exact H3|]. intros a b c d E. apply Ok_inj in E. rewrite !pair_equal_spec in E. destruct E as [[[<- <-] _] _]; auto. }
  destruct (fold_left _ _ _); auto. apply scan_fits; [|exact H3]. destruct (back (pd_mags p)) as [x|] eqn:E; [|auto].
  apply back_in in E. rewrite Forall_forall in H3. auto.
Qed.

Lemma ped_step_ok p m p2 ss : ok_ped p -> T (st_ts m) -> ped_step p m = Ok (p2, ss) -> ok_ped p2 /\ (List.length ss <= 1)%nat.
Proof.
  intros K Hm E. destruct (ped_step_inv _ (kp_inv K) E) as (I2 & L & S & _ & EP). split; [|exact L].
  destruct (ped_step_spec p m) as (p1 & p2' & ss' & E1 & E2 & _ & Hacc & H). rewrite E in E2. apply Ok_inj, pair_equal_spec in E2. destruct E2 as [<- <-].
  destruct (@update_ok_ped _ _ _ K Hm E1) as (_ & _ & _ & _ & A1 & A2 & _).
  constructor; [exact I2|rewrite Hacc; exact A1| |].
  - destruct H as [(_ & _ & ->)|(_ & (l & x & a & b & El1 & El2 & El & _) & _)]; [exact A2|]. rewrite El1, El in A2. rewrite El2.
    rewrite !Forall_app in *. tauto.
  - rewrite EP. destruct ss as [|s [|? ?]]; cbn in L |- *; [exact (kp_possible K)| |lia]. apply Forall_inv in S. rewrite S. exact Hm.
Qed.

(** the complementary filter *)
Record ok_cf (c : cfilter F) : Prop := {
  kc_cur : T (cf_cur c); kc_gyro : T (cf_gyro c); kc_dev : T (cf_devts c);
  kc_magn : T (st_ts (cf_magn c)); kc_acc : T (st_ts (cf_acc c)) }.

Lemma cf_update_fits c m : ok_cf c -> T (st_ts m) -> Forall fits (cf_update_ints c m).
Proof. intros [] Hm. unfold cf_update_ints. destruct (s_type (st_data m)); auto. destruct (_ =? _); auto. Qed.

Lemma cf_update_ok fuel k c m c' : ok_cf c -> T (st_ts m) -> cf_update fuel k c m = Ok c' -> ok_cf c'.
Proof.
  intros [] Hm E. unfold cf_update in E. destruct (s_type (st_data m)); try (apply Ok_inj in E; subst c'; constructor; cbn; auto; fail).
  destruct (if cf_gyro c =? -1 then _ else _) as [q ie]. inv_bind E. apply Ok_inj in Hb. subst c'. constructor; cbn; auto.
Qed.

(** sensor fusion; [n] bounds the number of steps so far *)
Record ok_sf (n : Z) (f : sfusion F) : Prop := {
  kf_cf : ok_cf (sf_cf f); kf_ped : ok_ped (sf_ped f); kf_n : 0 <= sf_steps f <= n }.

Lemma sf_fits n fuel s f m : n < 2 ^ 31 - 1 -> ok_sf n f -> T (st_ts m) -> Forall fits (sf_ints fuel s f m).
Proof.
  intros Hn [K1 K2 K3] Hm. unfold sf_ints. apply Forall_app. split; [apply ped_update_fits; auto|].
  destruct (ped_update (sf_ped f) m) as [p1| | |] eqn:E1; auto.
  destruct (@update_ok_ped _ _ _ K2 Hm E1) as (A1 & A2 & A3 & A4 & A5 & A6 & A7). assert (I := kp_inv K2). destruct I.
  apply Forall_app. split.
  { apply ped_steps_fits; rewrite ?A1, ?A2, ?A3; auto; [exact (kp_possible K2)|]. rewrite <- pi_same. exact (kp_possible K2). }
  destruct (ped_steps p1) as [[p2 ss]| | |] eqn:E2; auto.
  assert (E : ped_step (sf_ped f) m = Ok (p2, ss)) by (rewrite (@step_update _ _ _ E1); exact E2).
  destruct (@ped_step_ok _ _ _ _ K2 Hm E) as [_ L].
  apply Forall_app. split; [apply cf_update_fits; auto|].
  destruct (cf_update _ _ _ _) as [c'| | |] eqn:E3; auto.
  assert (KC := @cf_update_ok _ _ _ _ _ K1 Hm E3). destruct KC.
  apply Forall_app. split; [destruct (s_calcaz s); auto|].
  destruct ss as [|x t]; [auto|]. constructor; [|auto]. unfold fits, in32. lia.
Qed.

Lemma sf_ok n fuel s f m ts f' mi : ok_sf n f -> T (st_ts m) -> T ts -> sf_step fuel s f m ts = Ok (f', mi) ->
  ok_sf (n + 1) f' /\ T (mi_lastTs mi).
Proof.
  intros [K1 K2 K3] Hm Hts E. unfold sf_step in E. inv_bind E. rename a into p1. inv_bind Hb. destruct a as [p2 ss]. inv_bind Hb0. rename a into cf'.
  assert (E : ped_step (sf_ped f) m = Ok (p2, ss)) by (rewrite (@step_update _ _ _ Ha); assumption).
  destruct (@ped_step_ok _ _ _ _ K2 Hm E) as [K2' L]. assert (K1' := @cf_update_ok _ _ _ _ _ K1 Hm Ha1).
  destruct (if s_calcaz s then _ else _) as [az azv]. destruct ss as [|x t]; apply Ok_inj, pair_equal_spec in Hb; destruct Hb as [<- <-]; cbn;
    (split; [constructor; cbn; auto|auto]); cbn [List.length] in L; lia.
Qed.

(** the measurement buffer *)
Record ok_buf (b : buffer F) : Prop := { kb_cur : T (b_cur b); kb_last : T (b_last b); kb_step : T (b_step b) }.
Record ok_pre (p : preproc F) : Prop := {
  kq_buf : ok_buf (pp_buf p); kq_signal : T (pp_signal p); kq_sensor : T (st_ts (pp_sensor p)) }.

Lemma update_pre_ok s col p m p' : ok_pre p -> T (st_ts m) -> update_measurements s col p m = Ok p' -> ok_pre p' /\ pp_cur p' = st_ts m.
Proof.
  intros [[] ] Hm E. unfold update_measurements in E. destruct (st_data m).
  - inv_bind E. destruct a; apply Ok_inj in Hb; subst p'; (split; [|reflexivity]); constructor; cbn; auto; constructor; cbn; auto.
    destruct (_ =? _); auto.
  - apply Ok_inj in E. subst p'. split; [|reflexivity]. constructor; cbn; auto; constructor; auto.
  - apply Ok_inj in E. subst p'. split; [|reflexivity]. constructor; cbn; auto; constructor; auto.
Qed.

Lemma extract_fits bc b lm : (forall t, T t -> in64 (t - bc_keep bc)) -> ok_buf b -> T lm -> Forall fits (extract_ints bc b lm).
Proof.
  intros HK [] Hm. unfold extract_ints. set (step := if 0 <? lm then _ else _). assert (T step) by (unfold step; destruct (0 <? lm); auto). clearbody step.
  constructor; [auto|]. destruct (b_cur b - b_last b <? bc_shift bc); [auto|]. apply Forall_app. split; [destruct (_ && _); auto|]. destruct (_ && _); [auto|]. destruct (_ =? _); [auto|].
  constructor; [|auto]. cbn. auto.
Qed.

Lemma extract_ok s bc col p lm p' rs : ok_pre p -> T lm -> extract_radio s bc col p lm = Ok (p', rs) -> ok_pre p'.
Proof.
  intros [[] ] Hm E. unfold extract_radio in E. destruct (buffer_extract _ _ _) as [b out] eqn:EB. inv_bind E. inv_bind Hb. apply Ok_inj, pair_equal_spec in Hb0. destruct Hb0 as [<- _].
  constructor; cbn; auto. unfold buffer_extract in EB. set (step := if 0 <? lm then _ else _) in EB. assert (T step) by (unfold step; destruct (0 <? lm); auto).
  clearbody step. destruct (b_cur (pp_buf p) - b_last (pp_buf p) <? bc_shift bc); [|destruct (_ && _); [|destruct (_ =? _)]]; injection EB as <- _; constructor; cbn; auto.
Qed.

Lemma drop_fits (s : settings F) cur sig mot : T cur -> T sig -> T mot -> Forall fits (drop_ints s cur sig mot).
Proof. intros. unfold drop_ints. constructor; [auto|]. constructor; [auto|]. destruct (_ <=? _); auto. Qed.

Lemma outdoor_fits (s : settings F) o ts m : T ts -> T (p_ts (ou_last o)) -> Forall fits (outdoor_ints s o ts m).
Proof. intros. unfold outdoor_ints. destruct (gps_of s m); auto. Qed.

Lemma outdoor_ok s col o ts m n fl o' p : T ts -> T (p_ts (ou_last o)) -> outdoor_position s col o ts m n fl = Ok (o', p) ->
  T (p_ts (ou_last o')) /\ T (p_ts p).
Proof.
  intros H1 H2 E. unfold outdoor_position in E. cbv zeta in E.
  set (o1 := if _ || _ then _ else o) in E. assert (H3 : T (p_ts (ou_last o1))) by (unfold o1; destruct (_ || _); auto). clearbody o1.
  destruct (gps_of s m) as [[[la lo'] dev]|].
  - destruct (find _ _) as [l|]; [|apply Ok_inj, pair_equal_spec in E; destruct E as [<- <-]; auto].
    inv_bind E. destruct a as [buf v]. destruct (_ || _); apply Ok_inj, pair_equal_spec in Hb; destruct Hb as [<- <-]; cbn; auto.
  - destruct (_ <! _); apply Ok_inj, pair_equal_spec in E; destruct E as [<- <-]; auto.
Qed.

(** post-processing *)
Definition ok_sm (m : smoother F) : Prop := match m with SAB a => T (p_ts (ab_pos a)) | SLsq q => T (lq_start q) end.
Record ok_post (o : post F) : Prop := {
  ko_prev : T (p_ts (tm_prev (po_time o))); ko_next : T (p_ts (tm_next (po_time o))); ko_sm : ok_sm (po_sm o);
  ko_in : T (p_ts (po_in o)); ko_out : T (p_ts (po_out o)); ko_extr : T (po_extr o); ko_step : T (po_step o) }.

Lemma post0_ok (s : settings F) : ok_post (post0 s).
Proof. constructor; cbn; auto. destruct (s_abfilter s); cbn; auto. Qed.

Lemma fill_ok s o pin pout : ok_post o -> T (p_ts pin) -> T (p_ts pout) -> ok_post (fill_states s o pin pout).
Proof. intros [] H1 H2. unfold fill_states. destruct (p_empty pin), (p_empty pout); constructor; cbn; auto. Qed.

Lemma fuse_fits s o ts pin pout st : ok_post o -> T ts -> T (p_ts pin) -> T (p_ts pout) -> Forall fits (fuse_ints s o ts pin pout st).
Proof.
  intros K Hts H1 H2. assert (K' := @fill_ok s _ _ _ K H1 H2). destruct K, K'. unfold fuse_ints, prior_ints, delay_ints. rewrite !Forall_app.
  split; [|split].
  - destruct (p_empty pin); [auto|]. destruct (p_empty (po_in o)); auto.
  - destruct (p_empty pout); [auto|]. destruct (p_empty (po_out o)); auto.
  - destruct (_ && _); [auto|]. destruct (_ && _); [auto|]. destruct (_ || _); [auto|]. destruct (p_empty _); [auto|]. apply Forall_app.
    split; destruct (_ <=? _); auto.
Qed.

Lemma fuse_ok s o ts pin pout st o' f : ok_post o -> T ts -> T (p_ts pin) -> T (p_ts pout) -> fuse_positions s o ts pin pout st = (o', f) ->
  ok_post o' /\ T (p_ts f).
Proof.
  intros K Hts H1 H2 E. assert (K' := @fill_ok s _ _ _ K H1 H2). unfold fuse_positions in E. injection E as <- <-. split; [exact K'|]. destruct K'. unfold fused.
  repeat match goal with |- T (p_ts (if ?b then _ else _)) => destruct b; auto end. cbv zeta.
  repeat match goal with |- T (p_ts (if ?b then _ else _)) => destruct b; auto end. cbn [p_ts]. unfold T in *. lia.
Qed.

Lemma ab_ok s al a p a' r : T (p_ts (ab_pos a)) -> T (p_ts p) -> ab_smooth s al a p = (a', r) -> T (p_ts (ab_pos a')) /\ T (p_ts r).
Proof.
  intros H1 H2 E. unfold ab_smooth in E. destruct (_ <? _); [|injection E as <- <-; auto]. cbv zeta in E.
  destruct (_ || _ || _ || _); injection E as <- <-; cbn; auto.
  destruct (_ && _), (s_accsmooth s); cbn; auto.
Qed.
Lemma lsq_ok s al q p q' r : T (lq_start q) -> T (p_ts p) -> lsq_smooth s al q p = Ok (q', r) -> T (lq_start q') /\ T (p_ts r).
Proof.
  intros H1 H2 E. unfold lsq_smooth in E. destruct (negb _); [apply Ok_inj, pair_equal_spec in E; destruct E as [<- <-]; auto|]. cbv zeta in E.
  inv_bind E. inv_bind Hb. destruct (pf_predict _ a _) as [fx xs]. destruct (pf_predict _ a0 _) as [fy ys].
  destruct (_ && _); apply Ok_inj, pair_equal_spec in Hb0; destruct Hb0 as [<- <-]; cbn; auto. split; [auto|]. destruct (_ && _); auto.
Qed.
Lemma sm_ok s al m p m' r : ok_sm m -> T (p_ts p) -> sm_smooth s al m p = Ok (m', r) -> ok_sm m' /\ T (p_ts r).
Proof.
  intros H1 H2 E. destruct m as [a|q]; cbn [sm_smooth ok_sm] in *.
  - destruct (ab_smooth s al a p) as [a' r'] eqn:E1. apply Ok_inj, pair_equal_spec in E. destruct E as [<- <-]. eapply ab_ok; eassumption.
  - inv_bind E. destruct a as [q' r']. apply Ok_inj, pair_equal_spec in Hb. destruct Hb as [<- <-]. eapply lsq_ok; eassumption.
Qed.
Lemma sm_reset_ok m p : T (p_ts p) -> ok_sm (sm_reset m p).
Proof. destruct m; cbn; auto. Qed.
Lemma smooth_fits m p : ok_sm m -> T (p_ts p) -> Forall fits (smooth_ints m p).
Proof. intros. destruct m; cbn in *; [destruct (_ <? _)|destruct (lq_called l)]; auto. Qed.

Lemma time_ok m p ts m' r : T (p_ts (tm_prev m)) -> T (p_ts (tm_next m)) -> T (p_ts p) -> T ts -> time_smooth m p ts = (m', r) ->
  T (p_ts (tm_prev m')) /\ T (p_ts (tm_next m')) /\ Forall fits (time_smooth_ints m p ts).
Proof.
  intros H1 H2 H3 H4 E. unfold time_smooth in E. unfold time_smooth_ints.
  destruct (ts <? p_ts p); [injection E as <- _; auto|]. destruct (_ || _); [injection E as <- _; auto|]. destruct (_ || _); [injection E as <- _; auto|].
  cbv zeta in *. set (m1 := if _ <? _ then _ else m) in *.
  assert (Q : T (p_ts (tm_prev m1)) /\ T (p_ts (tm_next m1))) by (unfold m1; destruct (_ <? _); auto). destruct Q as [Q1 Q2]. clearbody m1.
  assert (Q : m' = m1) by (destruct (_ =? _); [injection E as <- _; auto|]; destruct (_ <! _); injection E as <- _; auto). subst m'.
  split; [exact Q1|]. split; [exact Q2|]. destruct (_ =? _); [auto|]. constructor; [auto|]. constructor; auto.
Qed.

Lemma processed_fits s pc o f ts lm l : ok_post o -> T (p_ts f) -> T ts -> T lm -> Forall fits (processed_ints s pc o f ts lm l).
Proof.
  intros [] Hf Hts Hl. unfold processed_ints. set (step := if 0 <? lm then _ else _). assert (Ts : T step) by (unfold step; destruct (0 <? lm); auto). clearbody step.
  destruct (p_empty f); [auto|]. destruct (negb _); [auto|]. constructor; [auto|]. destruct (_ <=? _); [auto|]. cbv zeta.
  set (sm := if negb _ then _ else _). assert (KS : ok_sm sm) by (unfold sm; destruct (negb _); [apply sm_reset_ok|]; auto). clearbody sm.
  apply Forall_app. split; [destruct (s_usesmooth s); [apply smooth_fits|]; auto|].
  assert (Q : forall m r, (if s_usesmooth s then sm_smooth s (l_allowed l) sm f else Ok (po_sm o, f)) = Ok (m, r) -> T (p_ts r)).
  { intros m r E. destruct (s_usesmooth s); [apply sm_ok in E; tauto|]. apply Ok_inj, pair_equal_spec in E. destruct E as [_ <-]. auto. }
  destruct (if s_usesmooth s then _ else _) as [[m r]| | |]; auto. specialize (Q _ _ eq_refl). apply Forall_app. split.
  - destruct (s_timesmooth s); [|auto]. destruct (time_smooth (po_time o) r ts) as [m' r'] eqn:E. apply time_ok in E; tauto.
  - unfold hold_ints. apply Forall_app. split; [destruct (0 <? step); auto|]. destruct (_ && _); auto.
Qed.

Lemma processed_ok s pc o f ts lm l o' p : ok_post o -> T (p_ts f) -> T ts -> T lm -> processed s pc o f ts lm l = Ok (o', p) -> ok_post o'.
Proof.
  intros [] Hf Hts Hl E. unfold processed in E. cbv zeta in E. set (step := if 0 <? lm then _ else _) in E. assert (Ts : T step) by (unfold step; destruct (0 <? lm); auto).
  clearbody step. cbn [po_idev po_odev po_time po_sm po_in po_out po_last po_extr po_step] in E.
  destruct (p_empty f); [apply Ok_inj, pair_equal_spec in E; destruct E as [<- _]; constructor; auto|].
  destruct (negb (inside_map s l f)); [apply Ok_inj, pair_equal_spec in E; destruct E as [<- _]; constructor; auto|].
  destruct (_ <=? _); [apply Ok_inj, pair_equal_spec in E; destruct E as [<- _]; constructor; auto|].
  inv_bind E. destruct a as [sm r].
  assert (Q : ok_sm sm /\ T (p_ts r)).
  { destruct (s_usesmooth s); [|apply Ok_inj, pair_equal_spec in Ha; destruct Ha as [<- <-]; auto].
    apply sm_ok in Ha; auto. destruct (negb _); [apply sm_reset_ok|]; auto. }
  destruct Q as [Q1 Q2].
  destruct (if s_timesmooth s then time_smooth (po_time o) r ts else (po_time o, r)) as [tm r'] eqn:ET.
  assert (QT : T (p_ts (tm_prev tm)) /\ T (p_ts (tm_next tm))).
  { destruct (s_timesmooth s); [apply time_ok in ET; tauto|]. injection ET as <- _. auto. }
  destruct QT as [QT1 QT2].
  destruct (hold_or_move _ _ _ _ _ _) as [last extr] eqn:EH. inv_bind Hb. apply Ok_inj, pair_equal_spec in Hb0. destruct Hb0 as [<- _].
  assert (T extr).
  { unfold hold_or_move in EH. cbv zeta in EH. destruct (_ && _); [destruct (_ && _)|]; injection EH as _ <-; auto. }
  constructor; cbn; auto.
Qed.

(** indoor estimators *)
Lemma indoor_ok k mp l ts ms mp' st p : T (p_ts mp) -> T ts -> indoor k mp l ts ms = Ok (mp', (st, p)) -> T (p_ts mp') /\ T (p_ts p).
Proof.
  intros H1 H2 E. unfold indoor in E. destruct (is_knn _).
  - unfold knn_position in E. destruct ms as [|x t]; [apply Ok_inj in E; rewrite !pair_equal_spec in E; destruct E as [<- [_ <-]]; auto|].
    inv_bind E. destruct (Nat.ltb _ _); [apply Ok_inj in Hb; rewrite !pair_equal_spec in Hb; destruct Hb as [<- [_ <-]]; auto|].
    inv_bind Hb. cbv zeta in Hb0.
    destruct (s_triangles _).
    + destruct (alookup (l_id l) (kt_tris (cf_kt k))) as [[|y u]|].
      * apply Ok_inj in Hb0; rewrite !pair_equal_spec in Hb0; destruct Hb0 as [<- [_ <-]]; auto.
      * inv_bind Hb0. apply Ok_inj in Hb; rewrite !pair_equal_spec in Hb; destruct Hb as [<- [_ <-]]; auto.
      * apply Ok_inj in Hb0; rewrite !pair_equal_spec in Hb0; destruct Hb0 as [<- [_ <-]]; auto.
    + inv_bind Hb0. apply Ok_inj in Hb; rewrite !pair_equal_spec in Hb; destruct Hb as [<- [_ <-]]; auto.
  - inv_bind E. apply Ok_inj, pair_equal_spec in Hb. destruct Hb as [<- ->]. split; [exact H1|].
    unfold zone_position in Ha. destruct ms as [|x t]; [apply Ok_inj, pair_equal_spec in Ha; destruct Ha as [_ <-]; auto|].
    destruct (level_radio l _) as [|m0 r]; [apply Ok_inj, pair_equal_spec in Ha; destruct Ha as [_ <-]; auto|].
    inv_bind Ha. destruct (mget _ _ _) as [A B]. apply Ok_inj, pair_equal_spec in Hb. destruct Hb as [_ <-]. auto.
Qed.

Record ok_client (n : Z) (c : client F) : Prop := {
  ki_pre : ok_pre (c_pre c); ki_sf : ok_sf n (c_sf c); ki_knn : T (p_ts (c_knn c));
  ki_outd : T (p_ts (ou_last (c_outd c))); ki_post : ok_post (c_post c) }.

Lemma client0_ok g s : initial_times lo hi g -> ok_client 0 (client0 g s).
Proof.
  intros (H1 & H2 & H3 & H4). constructor; cbn; auto.
  - constructor; cbn; auto. constructor; cbn; auto.
  - constructor; cbn; auto; [|apply ped0_ok|lia]. constructor; cbn; auto.
  - apply post0_ok.
Qed.

Lemma step_fits e k n c m : (forall t, T t -> in64 (t - bc_keep (cf_buf k))) -> n < 2 ^ 31 - 1 -> ok_client n c -> T (st_ts m) -> Forall fits (step_ints e k c m).
Proof.
  intros HK Hn [] Hm. unfold step_ints.
  destruct (update_measurements _ _ _ _) as [pre| | |] eqn:E1; auto. destruct (@update_pre_ok _ _ _ _ _ ki_pre0 Hm E1) as [KP EC]. rewrite EC.
  apply Forall_app. split; [eapply sf_fits; eauto; exact (kq_sensor KP)|].
  destruct (sf_step _ _ _ _ _) as [[sf mi]| | |] eqn:E2; auto.
  destruct (@sf_ok _ _ _ _ _ _ _ _ ki_sf0 (kq_sensor KP) Hm E2) as [_ Tm]. apply Forall_app. split; [apply extract_fits; auto; exact (kq_buf KP)|].
  destruct (extract_radio _ _ _ _ _) as [[pre1 rs]| | |]; auto. destruct (detect k rs); auto.
  apply Forall_app. split; [apply outdoor_fits; auto|].
  destruct (outdoor_position _ _ _ _ _ _ _) as [[od op]| | |] eqn:E3; auto. destruct (@outdoor_ok _ _ _ _ _ _ _ _ _ Hm ki_outd0 E3) as [_ TO].
  apply Forall_app. split; [apply drop_fits; auto; exact (kq_signal KP)|].
  unfold locate_ints. destruct (has_level _ _); [|auto]. destruct (get_level _ _); auto.
  destruct (indoor _ _ _ _ _) as [[kn [st inp]]| | |] eqn:E4; auto. destruct (@indoor_ok _ _ _ _ _ _ _ _ ki_knn0 Hm E4) as [_ TI].
  apply Forall_app. split; [apply fuse_fits; auto|].
  destruct (fuse_positions _ _ _ _ _ _) as [po f] eqn:E5. destruct (@fuse_ok _ _ _ _ _ _ _ _ ki_post0 Hm TI TO E5) as [KO TF].
  destruct (heading_step _ _ _ _); auto. apply processed_fits; auto.
Qed.

Lemma step_ok e k n c m c' o : ok_client n c -> T (st_ts m) -> nav_step e k c m = Ok (c', o) -> ok_client (n + 1) c'.
Proof.
  intros [] Hm E. destruct (nav_step_inv _ _ _ _ E) as (pre & sf & mi & pre1 & rs & det & lev & lid & outd & outp & oc & ns
    & H1 & H2 & H3 & H4 & H5 & H6 & H7 & H8 & ->). clear E H4 H5 H8.
  destruct (@update_pre_ok _ _ _ _ _ ki_pre0 Hm H1) as [KP EC]. rewrite EC in *.
  destruct (@sf_ok _ _ _ _ _ _ _ _ ki_sf0 (kq_sensor KP) Hm H2) as [KS Tm]. assert (KP1 := @extract_ok _ _ _ _ _ _ _ KP Tm H3).
  destruct (@outdoor_ok _ _ _ _ _ _ _ _ _ Hm ki_outd0 H6) as [TU TO].
  assert (Q : T (p_ts (oc_knn oc)) /\ ok_post (oc_post oc)).
  { unfold locate in H7. cbv zeta in H7. destruct (has_level _ _).
    - inv_bind H7. inv_bind Hb. destruct a0 as [kn [st inp]]. destruct (@indoor_ok _ _ _ _ _ _ _ _ ki_knn0 Hm Ha0) as [TK TI].
      destruct (fuse_positions _ _ _ _ _ _) as [po f] eqn:E5. destruct (@fuse_ok _ _ _ _ _ _ _ _ ki_post0 Hm TI TO E5) as [KO TF].
      inv_bind Hb0. destruct a0 as [[[az azv] ph] pg]. inv_bind Hb. destruct a0 as [po' p]. apply Ok_inj in Hb0. subst oc. cbn. split; [exact TK|].
      eapply processed_ok; [exact KO|exact TF|exact Hm|exact Tm|eassumption].
    - destruct (negb _); apply Ok_inj in H7; subst oc; cbn; auto. }
  destruct Q. constructor; cbn; auto.
Qed.

Lemma loop_all_fits e k ms : (forall t, T t -> in64 (t - bc_keep (cf_buf k))) -> Forall (fun m => T (st_ts m)) ms -> forall n c prev,
  n + Z.of_nat (List.length ms) < 2 ^ 31 -> ok_client n c ->
  Forall fits (loop_ints e k c prev ms) /\ (forall c' os, nav_loop e k c prev ms = Ok (c', os) -> ok_client (n + Z.of_nat (List.length ms)) c').
Proof.
  intros HK. induction 1 as [|m t Hm Ht IH]; intros n c prev Hn K; cbn [loop_ints nav_loop List.length] in *.
  { split; [auto|]. intros c' os E. injection E as <- _. replace (n + _) with n by lia. exact K. }
  assert (W : forall n n' c, n <= n' -> ok_client n c -> ok_client n' c).
  { intros n1 n2 c1 L []. constructor; auto. destruct ki_sf0. constructor; auto. lia. }
  destruct (st_ts m <? prev).
  { destruct (IH n c prev ltac:(lia) K) as [I1 I2]. split; [exact I1|]. intros c' os E. eapply W; [|eapply I2; exact E]. lia. }
  assert (S : Forall fits (step_ints e k c m)) by (eapply step_fits; eauto; lia).
  destruct (nav_step e k c m) as [[c1 o]| | |] eqn:E1; cbn [bind]; try (split; [apply Forall_app; auto|discriminate]).
  destruct (IH (n + 1) c1 (st_ts m) ltac:(lia)) as [I1 I2]; [eapply step_ok; eauto|]. split; [apply Forall_app; auto|].
  intros c' os E. inv_bind E. destruct a as [c2 os2]. apply Ok_inj, pair_equal_spec in Hb. destruct Hb as [<- _]. specialize (I2 _ _ Ha).
  eapply W; [|exact I2]. lia.
Qed.

Lemma history_fits e k bs : (forall t, T t -> in64 (t - bc_keep (cf_buf k))) -> forall n c,
  Forall (fun m => T (st_ts m)) (List.concat bs) -> n + Z.of_nat (List.length (List.concat bs)) < 2 ^ 31 -> ok_client n c ->
  Forall fits (history_ints e k c bs).
Proof.
  intros HK. induction bs as [|b t IH]; intros n c HT Hn K; cbn [history_ints List.concat] in *; [auto|].
  apply Forall_app in HT. destruct HT as [HT1 HT2]. rewrite app_length in Hn.
  assert (K' : ok_client n (clear_states c)) by (destruct K; constructor; auto).
  assert (N : Forall fits (navigate_ints e k c b) /\ (forall c' os, navigate e k c b = Ok (c', os) -> ok_client (n + Z.of_nat (List.length b)) c')).
  { destruct b as [|m ms]; cbn [navigate_ints navigate].
    - split; [auto|]. intros c' os E. injection E as <- _. cbn. replace (n + 0) with n by lia. exact K.
    - apply loop_all_fits; auto. lia. }
  destruct N as [N1 N2]. apply Forall_app. split; [exact N1|]. destruct (navigate e k c b) as [[c' os]| | |]; auto.
  eapply IH; [exact HT2| |eapply N2; reflexivity]. lia.
Qed.
End Overflow.
