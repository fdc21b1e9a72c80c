(** Invariant of the client state (C05, C06, C13). *)
From Coq Require Import Lia Reals Lra.
From Verif Require Import Base Lib Client Spec_Preproc Spec_Client Pf_Client.
Set Implicit Arguments.

(** case split on the outermost test of a hypothesis *)
Ltac dif H := match type of H with (if ?b then _ else _) = _ => destruct b eqn:? end.
Section Inv.
Context {F : Type} {NF : Num F} {SO : Sorter}.

(** a stored position: heading 0, and either empty or on a known level *)
Definition fine (c : collector F) (p : position F) : Prop :=
  p_head p = f0 /\ (p_empty p = true \/ known_level c (p_level p)).
Definition fine_sm (c : collector F) (m : smoother F) : Prop :=
  match m with SAB a => fine c (ab_pos a) | SLsq _ => True end.
Record fine_post (c : collector F) (o : post F) : Prop := mkFP {
  fp_in : fine c (po_in o); fp_out : fine c (po_out o); fp_last : fine c (po_last o);
  fp_prev : fine c (tm_prev (po_time o)); fp_next : fine c (tm_next (po_time o));
  fp_sm : fine_sm c (po_sm o) }.
Record inv (k : config F) (c : client F) : Prop := mkInv {
  iv_knn : fine (cf_col k) (c_knn c); iv_outd : fine (cf_col k) (ou_last (c_outd c));
  iv_post : fine_post (cf_col k) (c_post c); iv_pos : fine (cf_col k) (c_pos c);
  iv_gyro : c_prevgyro c = None; iv_head : c_prevhead c = None \/ c_prevhead c = Some f0 }.

Lemma fine0 c : fine c pos0. Proof. split; [reflexivity|left; reflexivity]. Qed.
Lemma fine_xy c p x y : fine c p -> fine c (pos_set_xy p x y). Proof. exact (fun H => H). Qed.
Lemma fine_ts c p t : fine c p -> fine c (pos_set_ts p t). Proof. exact (fun H => H). Qed.
Lemma fine_dev c p d : fine c p -> fine c (pos_set_dev p d). Proof. exact (fun H => H). Qed.
Hint Resolve fine0 fine_xy fine_ts fine_dev : fin.

Lemma fine_post0 c s : fine_post c (post0 s).
Proof. constructor; cbn; auto with fin. destruct (s_abfilter s); cbn; auto with fin. Qed.

Lemma inv0 k g s : inv k (client0 g s).
Proof. constructor; cbn; auto with fin. apply fine_post0. Qed.

Lemma get_level_in (c : collector F) lid l : get_level c lid = Ok l -> In l (col_levels c).
Proof.
  unfold get_level. intros H. inv_bind H. unfold at_or_throw in Hb.
  destruct (nth_error _ _) eqn:E; [|discriminate]. injection Hb as <-. eapply nth_error_In; exact E.
Qed.
Lemma in_known (c : collector F) l : In l (col_levels c) -> known_level c (l_id l).
Proof. intros H. apply in_map. exact H. Qed.

Lemma indoor_fine k mp l ts rs kn st p : In l (col_levels (cf_col k)) -> fine (cf_col k) mp ->
  indoor k mp l ts rs = Ok (kn, (st, p)) -> fine (cf_col k) kn /\ fine (cf_col k) p.
Proof.
  intros Hl Hm H. assert (Hn : forall x y d, fine (cf_col k) (mkPos x y (l_id l) d ts false INDOOR f0)).
  { intros. split; [reflexivity|right]. apply in_known, Hl. }
  unfold indoor in H. destruct (is_knn _).
  - unfold knn_position in H. destruct rs as [|r rs]; [injection H as <- <- <-; auto|].
    inv_bind H. destruct (Nat.ltb _ _); [injection Hb as <- <- <-; auto|]. inv_bind Hb.
    destruct (s_triangles _).
    + destruct (alookup (l_id l) (kt_tris _)) as [[|t ts']|]; [injection Hb0 as <- <- <-; auto| |injection Hb0 as <- <- <-; auto].
      inv_bind Hb0. injection Hb as <- <- <-. auto.
    + inv_bind Hb0. injection Hb as <- <- <-. auto.
  - inv_bind H. destruct a as [st1 p1]. injection Hb as <- <- <-. split; [exact Hm|].
    unfold zone_position in Ha. destruct rs as [|r rs]; [injection Ha as <- <-; auto with fin|].
    destruct (level_radio l (r :: rs)) as [|m0 rest]; [injection Ha as <- <-; auto with fin|].
    inv_bind Ha. destruct (mget _ _ _) as [A B]. injection Hb as <- <-. auto.
Qed.

Lemma outdoor_fine s (col : collector F) o ts sm n fl o' p : fine col (ou_last o) ->
  outdoor_position s col o ts sm n fl = Ok (o', p) -> fine col (ou_last o') /\ fine col p.
Proof.
  intros Hf H. unfold outdoor_position in H. cbv zeta in H.
  set (oo := if fl || _ then _ else o) in H.
  assert (Ho : ou_last oo = ou_last o) by (unfold oo; destruct (fl || _); reflexivity).
  destruct (gps_of s sm) as [[[la lo] dev]|].
  - destruct (find _ _) as [l|] eqn:E; [|injection H as <- <-; rewrite Ho; auto with fin].
    apply find_some in E. inv_bind H. destruct a as [buf valid].
    destruct (negb valid || _); injection Hb as <- <-; cbn; rewrite ?Ho; [auto with fin|].
    split; (split; [reflexivity|right; cbn; apply in_known, E]).
  - dif H; injection H as <- <-; rewrite Ho; auto with fin.
Qed.

Lemma fuse_fine c s o ts pin pout st o' f : fine_post c o -> fine c pin -> fine c pout ->
  fuse_positions s o ts pin pout st = (o', f) -> fine_post c o' /\ fine c f.
Proof.
  intros Hp Hi Ho H. unfold fuse_positions in H. injection H as <- <-.
  assert (Hfp : fine_post c (fill_states s o pin pout)).
  { destruct Hp. unfold fill_states. destruct (p_empty pin), (p_empty pout); constructor; cbn; auto. }
  split; [exact Hfp|]. unfold fused.
  destruct (_ && _); [exact Ho|]. destruct (_ && _); [exact Hi|]. destruct (_ || _); [apply Hfp|].
  destruct (p_empty (po_in _)) eqn:Ei; [apply Hfp|]. cbv zeta.
  destruct (_ <! _); [apply Hfp|]. destruct (_ <! _); [apply Hfp|].
  destruct (_ && _).
  - destruct (fp_in Hfp) as [H1 H2]. rewrite Ei in H2. split; cbn; [exact H1|exact H2].
  - destruct (_ <! _); apply Hfp.
Qed.

Lemma smooth_fine c s al m p m' r : fine_sm c m -> fine c p -> sm_smooth s al m p = Ok (m', r) ->
  fine_sm c m' /\ fine c r.
Proof.
  intros Hm Hp H. destruct m as [a|q]; cbn [sm_smooth] in H.
  - destruct (ab_smooth s al a p) as [a1 p1] eqn:E. injection H as <- <-.
    unfold ab_smooth in E. cbn in Hm. cbn [fine_sm].
    destruct (_ <? _)%Z; [|injection E as <- <-; auto].
    cbv zeta in E. destruct (negb _ || _ || _ || _); [injection E as <- <-; auto|].
    injection E as <- <-. cbn [ab_pos]. destruct (s_accsmooth s), (fisfinite _ && fisfinite _); auto with fin.
  - inv_bind H. destruct a as [q1 p1]. injection Hb as <- <-. split; [exact I|].
    unfold lsq_smooth in Ha. destruct (negb _); [injection Ha as <- <-; auto|].
    cbv zeta in Ha. inv_bind Ha. inv_bind Hb. destruct (pf_predict _ a _) as [fx xs]. destruct (pf_predict _ a0 _) as [fy ys].
    destruct (_ && _); injection Hb0 as <- <-; auto. destruct (_ && _); auto with fin.
Qed.

Lemma time_fine c m p ts m' r : fine c (tm_prev m) -> fine c (tm_next m) -> fine c p ->
  time_smooth m p ts = (m', r) -> fine c (tm_prev m') /\ fine c (tm_next m') /\ fine c r.
Proof.
  intros H1 H2 H3 H. unfold time_smooth in H.
  destruct (ts <? _)%Z; [injection H as <- <-; auto|].
  destruct (_ || _); [injection H as <- <-; auto|].
  destruct (_ || _ || _); [injection H as <- <-; auto|].
  set (mm := if (_ <? _)%Z then _ else m) in H. cbv zeta in H.
  assert (Hm : fine c (tm_prev mm) /\ fine c (tm_next mm)) by (unfold mm; destruct (_ <? _)%Z; auto).
  destruct Hm as [Hm1 Hm2].
  destruct (_ =? _)%Z; [injection H as <- <-; auto|].
  destruct (_ <! _); injection H as <- <-; auto with fin.
Qed.

Lemma processed_fine c s pc o f ts lm l o' p : fine_post c o -> fine c f ->
  processed s pc o f ts lm l = Ok (o', p) -> fine_post c o' /\ fine c p.
Proof.
  intros Ho Hf H. unfold processed in H. cbv zeta in H.
  destruct (p_empty f); [injection H as <- <-; destruct Ho; split; [constructor; auto|apply fine0]|].
  destruct (negb _); [injection H as <- <-; destruct Ho; split; [constructor; auto|apply fine0]|].
  destruct (_ <=? _)%Z; [injection H as <- <-; destruct Ho; split; [constructor; auto|apply fine0]|].
  cbn [po_last po_sm po_time po_idev po_odev po_in po_out] in H.
  inv_bind H. destruct a as [sm r].
  assert (Hr : fine_sm c sm /\ fine c r).
  { destruct (s_usesmooth s); [|injection Ha as <- <-; split; [apply Ho|exact Hf]].
    eapply smooth_fine; [|exact Hf|exact Ha].
    destruct (negb _); [|apply Ho]. destruct (po_sm o); cbn; [exact Hf|exact I]. }
  destruct Hr as [Hsm Hr].
  set (tr := if s_timesmooth s then _ else _) in Hb.
  assert (Htm : fine c (tm_prev (fst tr)) /\ fine c (tm_next (fst tr)) /\ fine c (snd tr)).
  { unfold tr. destruct (s_timesmooth s); [|cbn; split; [apply Ho|split; [apply Ho|exact Hr]]].
    destruct (time_smooth (po_time o) r ts) as [tm1 r1] eqn:E. cbn.
    eapply time_fine; [apply Ho|apply Ho|exact Hr|exact E]. }
  destruct tr as [tm r1]. cbn [fst snd] in Htm. destruct Htm as (Ht1 & Ht2 & Hr1).
  set (hm := hold_or_move _ _ _ _ _ _) in Hb.
  assert (Hh : fine c (fst hm)).
  { unfold hm, hold_or_move. cbv zeta. cbn [po_last po_extr po_in].
    destruct (_ && _); [destruct (_ && _)|]; cbn; auto with fin. destruct Ho; auto with fin. }
  destruct hm as [last extr]. cbn [fst] in Hh.
  inv_bind Hb.
  assert (Hpj : fine c a).
  { unfold project in Ha0. destruct (s_graphproj s); [|injection Ha0 as <-; exact Hh].
    inv_bind Ha0. destruct (_ && _); injection Hb as <-; auto with fin. }
  injection Hb0 as <- <-. unfold clamp_round. destruct Ho.
  split; [constructor; cbn; auto with fin|auto with fin].
Qed.

Lemma heading_fine ph pg f (m : motion F) r : (f0 =! f0) = true -> p_head f = f0 -> pg = None ->
  ph = None \/ ph = Some f0 -> heading_step ph pg f m = Ok r ->
  exists ph', r = (mi_azim m, mi_azvalid m, ph', None) /\ (ph' = None \/ ph' = Some f0).
Proof.
  intros H0 Hf -> Hp H. unfold heading_step in H. rewrite Hf in H.
  assert (E : negb (p_empty f) && match ph with Some h => fneb f0 h | None => false end = false).
  { destruct Hp as [->| ->]; [apply andb_false_r|]. unfold fneb. rewrite H0. apply andb_false_r. }
  rewrite E in H. injection H as <-. eexists. split; [reflexivity|].
  destruct (p_empty f); [exact Hp|right; reflexivity].
Qed.

(** what [locate] preserves *)
Lemma locate_fine k c ts lid rs outp mi oc : (f0 =! f0) = true -> inv k c -> fine (cf_col k) outp ->
  locate k c ts lid rs outp mi = Ok oc ->
  fine (cf_col k) (oc_knn oc) /\ fine_post (cf_col k) (oc_post oc) /\ fine (cf_col k) (oc_pos oc) /\
  oc_pg oc = None /\ (oc_ph oc = None \/ oc_ph oc = Some f0) /\
  (oc_azim oc = mi_azim mi \/
   let az := if mi_azvalid mi then mi_azim mi else fopp (f0 -! fpi2) in
   oc_azim oc = if s_enu (cf_set k) then fopp az +! fpi2 else az) /\
  (oc_flag oc = true ->
   let az := if mi_azvalid mi then mi_azim mi else fopp (f0 -! fpi2) in
   oc_azim oc = if s_enu (cf_set k) then fopp az +! fpi2 else az).
Proof.
  intros H0 I Ho H. unfold locate in H. destruct (has_level _ _).
  - inv_bind H. rename a into l. inv_bind Hb. destruct a as [kn [st inp]].
    destruct (fuse_positions _ _ _ _ _ _) as [po f] eqn:Ef. inv_bind Hb0. destruct a as [[[az azv] ph] pg].
    inv_bind Hb. destruct a as [po1 p]. injection Hb0 as <-.
    destruct (indoor_fine _ _ _ _ (get_level_in _ _ Ha) (iv_knn I) Ha0) as [G1 G2].
    destruct (fuse_fine (iv_post I) G2 Ho Ef) as [G3 G4].
    destruct (heading_fine _ _ H0 (proj1 G4) (iv_gyro I) (iv_head I) Ha1) as (ph' & E & Hph).
    injection E as -> -> -> ->.
    destruct (processed_fine _ _ _ _ _ G3 G4 Ha2) as [G5 G6]. cbn.
    rewrite (proj1 G4). repeat split; auto; try apply G1; try apply G5; try apply G6.
  - destruct I. destruct (negb _); injection H as <-; cbn; repeat split; auto; try discriminate; apply Ho || apply iv_post0 || apply iv_knn0 || apply iv_pos0.
Qed.

Lemma inv_step e k c m c' o : (f0 =! f0) = true -> inv k c -> nav_step e k c m = Ok (c', o) -> inv k c'.
Proof.
  intros H0 I H. destruct (nav_step_inv _ _ _ _ H) as (pre & sf & mi & pre1 & rs & det & lev & lid & outd & outp & oc & ns
    & H1 & H2 & H3 & H4 & H5 & H6 & H7 & H8 & ->).
  destruct (outdoor_fine _ _ _ _ _ _ (iv_outd I) H6) as [G1 G2].
  destruct (locate_fine _ _ _ _ H0 I G2 H7) as (L1 & L2 & L3 & L4 & L5 & _).
  constructor; cbn; auto.
Qed.
(** any property preserved by steps and independent of getStates() holds after a history *)
Lemma history_ind e k (P : client F -> Prop) (Q : noutput F -> Prop) :
  (forall c l, P c -> P (with_states c l)) ->
  (forall c m c' o, P c -> nav_step e k c m = Ok (c', o) -> P c' /\ Q o) ->
  forall bs c c' os, P c -> navigate_all e k c bs = Ok (c', os) -> P c' /\ Forall (Forall Q) os.
Proof.
  intros Hs Hq. 
  assert (G : forall ms c c' os, P c -> process e k c ms = Ok (c', os) -> P c' /\ Forall Q os).
  { induction ms as [|m ms IH]; intros c c' os Hc H; [injection H as <- <-; auto|].
    cbn [process] in H. inv_bind H. destruct a as [c1 o1]. inv_bind Hb. destruct a as [c2 o2]. injection Hb0 as <- <-.
    destruct (Hq _ _ _ _ Hc Ha) as [E1 E2]. destruct (IH _ _ _ E1 Ha0). auto. }
  induction bs as [|b bs IH]; intros c c' os Hc H; [injection H as <- <-; auto|].
  cbn [navigate_all] in H. inv_bind H. destruct a as [c1 o1]. inv_bind Hb. destruct a as [c2 o2]. injection Hb0 as <- <-.
  assert (E : P c1 /\ Forall Q o1).
  { destruct b as [|m b]; [injection Ha as <- <-; auto|]. rewrite navigate_process in Ha by discriminate.
    eapply G; [|exact Ha]. apply (Hs c []), Hc. }
  destruct E as [E1 E2]. destruct (IH _ _ _ E1 Ha0). auto.
Qed.
Lemma inv_states k c l : inv k c -> inv k (with_states c l).
Proof. intros []. constructor; auto. Qed.
Lemma inv_reachable e k c : (f0 =! f0) = true -> reachable e k c -> inv k c.
Proof.
  intros H0 (g & bs & os & H).
  apply (@history_ind e k (inv k) (fun _ => True)) in H; [apply H| | |apply inv0].
  - intros; apply inv_states; assumption.
  - intros c1 m c2 o Hc Hs. split; [eapply inv_step; eassumption|exact I].
Qed.

(** C05, C06 *)
Lemma output_report e k p st az (rs : list (radio F)) o : fine (cf_col k) p -> output e k p st az rs = Ok o ->
  (o_status o = OK /\ reports_position (cf_col k) o /\ o_level o = p_level p) \/ (o_status o <> OK /\ reports_nothing o).
Proof.
  intros [_ Hf] H. unfold output in H. destruct (p_empty p) eqn:E.
  - injection H as <-. right. split; [|repeat split].
    cbn. destruct st; cbn; discriminate.
  - destruct Hf as [Hf|Hf]; [discriminate|]. left. inv_bind H. destruct a as [[la lo] al]. inv_bind Hb. injection Hb0 as <-.
    cbn. split; [reflexivity|]. split; [|reflexivity]. split; [exact Hf|]. do 3 eexists. repeat split.
Qed.
Lemma report_place e k c m c' o : wf_collector (cf_col k) -> nav_step e k c m = Ok (c', o) ->
  if p_empty (c_pos c') then o_status o <> OK /\ reports_nothing o else same_place (cf_col k) (c_pos c') o.
Proof.
  intros Hw H. destruct (nav_step_inv _ _ _ _ H) as (pre & sf & mi & pre1 & rs & det & lev & lid & outd & outp & oc & ns
    & H1 & H2 & H3 & H4 & H5 & H6 & H7 & H8 & ->). cbn [c_pos].
  destruct (p_empty (oc_pos oc)) eqn:E; [|apply (output_status _ _ _ _ _ _ Hw H8 E)].
  unfold output in H8. rewrite E in H8. injection H8 as <-. split; [|repeat split].
  cbn. destruct (oc_stat oc); cbn; discriminate.
Qed.
Lemma report_step e k c m c' o : (f0 =! f0) = true -> inv k c -> nav_step e k c m = Ok (c', o) ->
  (o_status o = OK /\ reports_position (cf_col k) o) \/ (o_status o <> OK /\ reports_nothing o).
Proof.
  intros H0 I H. assert (I' := inv_step _ _ H0 I H).
  destruct (nav_step_inv _ _ _ _ H) as (pre & sf & mi & pre1 & rs & det & lev & lid & outd & outp & oc & ns
    & H1 & H2 & H3 & H4 & H5 & H6 & H7 & H8 & ->).
  destruct (output_report _ _ _ _ _ (iv_pos I') H8) as [(A & B & _)|A]; auto.
Qed.
Lemma report_history e k c bs c' os : (f0 =! f0) = true -> reachable e k c -> navigate_all e k c bs = Ok (c', os) ->
  Forall (Forall (fun o => (o_status o = OK /\ reports_position (cf_col k) o) \/ (o_status o <> OK /\ reports_nothing o))) os.
Proof.
  intros H0 Hr H. apply inv_reachable in Hr; [|exact H0].
  eapply (@history_ind e k (inv k)); [| |exact Hr|exact H].
  - intros; apply inv_states; assumption.
  - intros c1 m c2 o Hc Hs. split; [eapply inv_step|eapply report_step]; eassumption.
Qed.

(** C13 *)
Lemma no_gyro e k c : (f0 =! f0) = true -> reachable e k c ->
  c_prevgyro c = None /\ (c_prevhead c = None \/ c_prevhead c = Some f0).
Proof. intros H0 H. apply inv_reachable in H; [|exact H0]. destruct H; auto. Qed.

(** the azimuth used for the output *)
Definition report_azimuth (s : settings F) (valid : bool) (az : F) : F :=
  let a := if valid then az else fopp (f0 -! fpi2) in if s_enu s then fopp a +! fpi2 else a.
Definition azimuth_of (s : settings F) (cf : cfilter F) : bool * F :=
  if s_calcaz s then (true, cf_magaz cf)
  else if azimuth_outdated (cf_conf s) cf then (false, f0) else (true, cf_devaz cf).
Lemma sf_azimuth fuel (s : settings F) sf sm ts sf' mi : sf_step fuel s sf sm ts = Ok (sf', mi) ->
  (mi_azvalid mi, mi_azim mi) = azimuth_of s (sf_cf sf').
Proof.
  intros H. unfold sf_step in H. inv_bind H. inv_bind Hb. destruct a0 as [pd st]. inv_bind Hb0.
  unfold azimuth_of. destruct (s_calcaz s); [destruct st; injection Hb as <- <-; reflexivity|].
  destruct (azimuth_outdated _ a0) eqn:E; cbn [negb] in Hb; destruct st; injection Hb as <- <-; cbn [sf_cf]; rewrite E; reflexivity.
Qed.
Lemma orient_step e k c m c' o x : (f0 =! f0) = true -> inv k c -> nav_step e k c m = Ok (c', o) ->
  o_orient o = Some x ->
  let va := azimuth_of (cf_set k) (sf_cf (c_sf c')) in
  (to_mpp (e_fuel e) (snd va) = Ok x \/ to_mpp (e_fuel e) (report_azimuth (cf_set k) (fst va) (snd va)) = Ok x) /\
  (c_flag c' = true -> to_mpp (e_fuel e) (report_azimuth (cf_set k) (fst va) (snd va)) = Ok x).
Proof.
  intros H0 I H Hx. destruct (nav_step_inv _ _ _ _ H) as (pre & sf & mi & pre1 & rs & det & lev & lid & outd & outp & oc & ns
    & H1 & H2 & H3 & H4 & H5 & H6 & H7 & H8 & ->). cbn [c_sf c_flag sf_cf].
  destruct (outdoor_fine _ _ _ _ _ _ (iv_outd I) H6) as [G1 G2].
  destruct (locate_fine _ _ _ _ H0 I G2 H7) as (_ & _ & _ & _ & _ & L6 & L7).
  rewrite <- (sf_azimuth _ _ _ _ _ H2). cbn [fst snd].
  assert (E : to_mpp (e_fuel e) (oc_azim oc) = Ok x).
  { unfold output in H8. destruct (p_empty _); [injection H8 as <-; discriminate|].
    inv_bind H8. destruct a as [[la lo] al]. inv_bind Hb. injection Hb0 as <-. cbn in Hx. congruence. }
  unfold report_azimuth. cbv zeta in *. split; [destruct L6 as [E1|E1]; rewrite E1 in E; auto|].
  intros Hf. specialize (L7 Hf). rewrite L7 in E. exact E.
Qed.
End Inv.
