(** Proofs of C28-C30. *)
From Verif Require Import Lib NumOrd Estimators Client Spec_Preproc Spec_Client Spec_Outdoor
  Pf_Preproc Pf_Client Pf_ClientInv Pf_ClientThrow Pf_ClientTop Pf_Outdoor.
Set Implicit Arguments.

Section Gnss.
Context {F : Type} {NF : Num F} {SO : Sorter}.

(** ** C28 *)
Definition config_max (k : config F) (z : F) : config F :=
  mkConfig (with_maxgps (cf_set k) z) (cf_col k) (cf_buf k) (cf_post k) (cf_kt k).
Lemma mx_outdoor s z (col : collector F) o ts sm n fl : s_sigma s = false -> ou_buf o = [] ->
  outdoor_position (with_maxgps s z) col o ts sm n fl = outdoor_position s col o ts sm n fl.
Proof.
  intros Hs Hb. unfold outdoor_position. cbv zeta. change (gps_of (with_maxgps s z) sm) with (gps_of s sm).
  assert (E : forall b : bool, (if b then mkOutd (ou_last o) [] else o) = o) by (intros []; [destruct o; cbn in *; congruence|reflexivity]).
  rewrite !E. reflexivity.
Qed.
Lemma sigma_off_buf s (col : collector F) o ts sm n fl o' p : s_sigma s = false -> ou_buf o = [] ->
  outdoor_position s col o ts sm n fl = Ok (o', p) -> ou_buf o' = [].
Proof.
  intros Hs Hb. unfold outdoor_position. cbv zeta. rewrite Hs, andb_false_r.
  assert (E : forall b : bool, (if b then mkOutd (ou_last o) [] else o) = o) by (intros []; [destruct o; cbn in *; congruence|reflexivity]).
  rewrite !E. intros H. destruct (gps_of s sm) as [[[la lo] dv]|].
  - destruct (find _ _); [|injection H as <- <-; exact Hb]. cbn [bind] in H.
    match type of H with (if ?b then _ else _) = _ => destruct b end; injection H as <- <-; exact Hb.
  - match type of H with (if ?b then _ else _) = _ => destruct b end; injection H as <- <-; exact Hb.
Qed.
Lemma mx_update s z (col : collector F) p m :
  update_measurements (with_maxgps s z) col p m = update_measurements s col p m.
Proof. destruct s; reflexivity. Qed.
Lemma mx_sf fuel (s : settings F) z sf sm ts : sf_step fuel (with_maxgps s z) sf sm ts = sf_step fuel s sf sm ts.
Proof. destruct s; reflexivity. Qed.
Lemma mx_extract s z bc (col : collector F) p ls :
  extract_radio (with_maxgps s z) bc col p ls = extract_radio s bc col p ls.
Proof. destruct s; reflexivity. Qed.
Lemma mx_detect k z rs : detect (config_max k z) rs = detect k rs.
Proof. destruct k as [s ? ? ? ?]; destruct s; reflexivity. Qed.
Lemma mx_locate k z c ts lid rs outp mi : locate (config_max k z) c ts lid rs outp mi = locate k c ts lid rs outp mi.
Proof. destruct k as [s ? ? ? ?]; destruct s; reflexivity. Qed.
Lemma mx_output e k z p st az (rs : list (radio F)) : output e (config_max k z) p st az rs = output e k p st az rs.
Proof. destruct k as [s ? ? ? ?]; destruct s; reflexivity. Qed.
Lemma mx_step e k z c m : s_sigma (cf_set k) = false -> ou_buf (c_outd c) = [] ->
  nav_step e (config_max k z) c m = nav_step e k c m.
Proof.
  intros H1 H2. unfold nav_step. cbn [cf_set cf_col cf_buf config_max]. rewrite mx_update.
  destruct (update_measurements _ _ _ _) as [pre| | |]; cbn [bind]; [|reflexivity..]. rewrite mx_sf.
  destruct (sf_step _ _ _ _ _) as [[sf mi]| | |] eqn:E; cbn [bind]; [|reflexivity..]. rewrite mx_extract.
  destruct (extract_radio _ _ _ _ _) as [[pre1 rs]| | |]; cbn [bind]; [|reflexivity..]. rewrite mx_detect.
  destruct (detect _ _) as [det| | |]; cbn [bind]; [|reflexivity..].
  change (s_baro (with_maxgps (cf_set k) z)) with (s_baro (cf_set k)).
  destruct (level_step _ _ _ _) as [lev lid]. rewrite mx_outdoor by assumption.
  destruct (outdoor_position _ _ _ _ _ _ _) as [[outd outp]| | |]; cbn [bind]; [|reflexivity..].
  change (drop_level (with_maxgps (cf_set k) z)) with (drop_level (cf_set k)). rewrite mx_locate.
  destruct (locate _ _ _ _ _ _ _) as [oc| | |]; cbn [bind]; [|reflexivity..]. rewrite mx_output. reflexivity.
Qed.
Lemma step_buf e k c m c' o : s_sigma (cf_set k) = false -> ou_buf (c_outd c) = [] ->
  nav_step e k c m = Ok (c', o) -> ou_buf (c_outd c') = [].
Proof.
  intros Hs Hb H. destruct (nav_step_inv _ _ _ _ H) as (pre & sf & mi & pre1 & rs & det & lev & lid & outd & outp & oc & ns
      & H1 & H2 & H3 & H4 & H5 & H6 & H7 & H8 & ->). cbn. eapply sigma_off_buf; eassumption.
Qed.
Lemma mx_loop e k z ms : s_sigma (cf_set k) = false -> forall c prev, ou_buf (c_outd c) = [] ->
  nav_loop e (config_max k z) c prev ms = nav_loop e k c prev ms /\
  (forall c' os, nav_loop e k c prev ms = Ok (c', os) -> ou_buf (c_outd c') = []).
Proof.
  intros H1. induction ms as [|m ms IH]; intros c prev Hb; cbn [nav_loop].
  - split; [reflexivity|]. intros c' os E; injection E as <- <-. exact Hb.
  - destruct (_ <? _)%Z; [apply IH, Hb|]. rewrite mx_step by assumption.
    destruct (nav_step e k c m) as [[c1 o]| | |] eqn:E; cbn [bind]; try (split; [reflexivity|discriminate]).
    assert (Hb1 := @step_buf e k c m c1 o H1 Hb E). destruct (IH c1 (st_ts m) Hb1) as [E1 E2]. rewrite E1.
    split; [reflexivity|]. intros c' os H. inv_bind H. destruct a as [c2 o2]. injection Hb0 as <- <-. eapply E2; exact Ha.
Qed.
Lemma mx_history e k z bs : s_sigma (cf_set k) = false -> forall c, ou_buf (c_outd c) = [] ->
  navigate_all e (config_max k z) c bs = navigate_all e k c bs.
Proof.
  intros H1. induction bs as [|b bs IH]; intros c Hb; [reflexivity|]. cbn [navigate_all].
  assert (E : navigate e (config_max k z) c b = navigate e k c b /\
    (forall c' os, navigate e k c b = Ok (c', os) -> ou_buf (c_outd c') = [])).
  { destruct b as [|m b].
    - split; [reflexivity|]. intros c' os E; injection E as <- <-. exact Hb.
    - unfold navigate. apply mx_loop; [assumption|exact Hb]. }
  destruct E as [E1 E2]. rewrite E1. destruct (navigate e k c b) as [[c1 o]| | |]; cbn [bind]; try reflexivity.
  rewrite IH; [reflexivity|]. eapply E2; reflexivity.
Qed.
Lemma mk_config_max s (col : collector F) z :
  mk_config (with_maxgps s z) col = (k <- mk_config s col ;; Ok (config_max k z)).
Proof.
  unfold mk_config. change (is_knn (with_maxgps s z)) with (is_knn s).
  change (zone_tables (with_maxgps s z) col) with (zone_tables s col).
  destruct (if is_knn s then Ok [] else zone_tables s col) as [zt| | |]; cbn [bind]; try reflexivity.
  destruct (if is_knn s then triangulate col else Ok []) as [tr| | |]; cbn [bind]; try reflexivity.
  change (buffer_config (with_maxgps s z)) with (buffer_config s).
  destruct (buffer_config s) as [bc| | |]; cbn [bind]; try reflexivity.
  change (post_config (with_maxgps s z)) with (post_config s).
  destruct (post_config s) as [pc| | |]; cbn [bind]; reflexivity.
Qed.
Lemma max_unused e s gs k z : s_sigma s = false -> built s gs k ->
  exists k', built (with_maxgps s z) gs k' /\
    forall g bs, navigate_all e k' (client0 g (with_maxgps s z)) bs = navigate_all e k (client0 g s) bs.
Proof.
  intros Hs Hb. destruct (built_ids Hb) as [_ <-]. destruct Hb as (c0 & Hc & Hk).
  exists (config_max k z). split.
  - exists c0. split; [exact Hc|]. rewrite mk_config_max, Hk. reflexivity.
  - intros g bs. change (client0 g (with_maxgps (cf_set k) z)) with (client0 g (cf_set k)).
    apply mx_history; [exact Hs|reflexivity].
Qed.

(** ** C29 *)
Definition config_gps (k : config F) (b : bool) : config F :=
  mkConfig (with_gps (cf_set k) b) (cf_col k) (cf_buf k) (cf_post k) (cf_kt k).
(** without a level Use_gps plays no part *)
Lemma gps_ignored e k c m b : wf_collector (cf_col k) -> has_level (cf_col k) "" = false -> stale k c m ->
  nav_step e (config_gps k b) c m = nav_step e k c m.
Proof.
  intros Hw Hl [Hn Hs]. unfold nav_step. cbn [cf_set cf_col cf_buf config_gps].
  change (update_measurements (with_gps (cf_set k) b)) with (update_measurements (cf_set k)).
  destruct (update_measurements _ _ _ _) as [pre| | |] eqn:E1; cbn [bind]; [|reflexivity..].
  destruct (@update_no_radio F NF _ _ _ _ _ Hw Hn E1) as (Es & _ & _). assert (Ec := update_cur _ _ _ _ E1).
  change (sf_step (e_fuel e) (with_gps (cf_set k) b)) with (sf_step (e_fuel e) (cf_set k)).
  destruct (sf_step _ _ _ _ _) as [[sf mi]| | |] eqn:E; cbn [bind]; [|reflexivity..].
  change (extract_radio (with_gps (cf_set k) b)) with (extract_radio (cf_set k)).
  destruct (extract_radio _ _ _ _ _) as [[pre1 rs]| | |]; cbn [bind]; [|reflexivity..].
  change (detect (config_gps k b)) with (detect k).
  destruct (detect _ _) as [det| | |]; cbn [bind]; [|reflexivity..].
  change (s_baro (with_gps (cf_set k) b)) with (s_baro (cf_set k)).
  destruct (level_step _ _ _ _) as [lev lid].
  change (outdoor_position (with_gps (cf_set k) b)) with (outdoor_position (cf_set k)).
  destruct (outdoor_position _ _ _ _ _ _ _) as [[outd outp]| | |]; cbn [bind]; [|reflexivity..].
  assert (D : forall s : settings F, s_nosignal s = s_nosignal (cf_set k) -> drop_level s (pp_cur pre) (pp_signal pre) (mi_lastTs mi) lid = ""%string).
  { intros s Q. apply drop_no_signal. rewrite Q, Es, Ec. exact Hs. }
  rewrite !D by reflexivity.
  assert (L : locate (config_gps k b) c (pp_cur pre) "" rs outp mi = locate k c (pp_cur pre) "" rs outp mi).
  { unfold locate. cbn [cf_col cf_set config_gps]. rewrite Hl. reflexivity. }
  rewrite L. clear L D. destruct (locate k c (pp_cur pre) "" rs outp mi) as [oc| | |]; cbn [bind]; [|reflexivity..].
  assert (O : output e (config_gps k b) (oc_pos oc) (oc_stat oc) (oc_azim oc) rs = output e k (oc_pos oc) (oc_stat oc) (oc_azim oc) rs)
    by (destruct k as [s0 ? ? ? ?]; destruct s0; reflexivity).
  rewrite O. reflexivity.
Qed.
Lemma gnss_reported e k c m c' o : wf_collector (cf_col k) -> has_level (cf_col k) "" = false -> stale k c m ->
  nav_step e k c m = Ok (c', o) ->
  exists outp, outdoor_position (cf_set k) (cf_col k) (c_outd c) (st_ts m) (pp_sensor (c_pre c')) (pp_nmea (c_pre c')) (c_flag c)
      = Ok (c_outd c', outp) /\ (p_empty outp = false -> same_place (cf_col k) outp o).
Proof.
  intros Hw Hl [Hn Hs] H.
  assert (Esig : pp_signal (c_pre c') = pp_signal (c_pre c)).
  { destruct (nav_step_inv _ _ _ _ H) as (pre & sf & mi & pre1 & ms & det & lev & lid & outd & outp & oc & ns
      & H1 & H2 & H3 & H4 & H5 & H6 & H7 & H8 & ->). cbn [c_pre].
    destruct (extract_radio_keeps _ _ _ _ _ H3) as (_ & E2 & _ & _).
    destruct (update_no_radio _ _ _ Hw Hn H1) as (E & _ & _). congruence. }
  rewrite <- Esig in Hs. destruct (no_signal_step _ _ _ _ Hl H Hs) as (_ & _ & _ & _ & outp & Eo & E).
  exists outp. split; [exact Eo|]. intros Ep. rewrite Ep in E.
  destruct (nav_step_inv _ _ _ _ H) as (pre & sf & mi & pre1 & ms & det & lev & lid & outd & outp' & oc & ns
      & H1 & H2 & H3 & H4 & H5 & H6 & H7 & H8 & ->). cbn [c_pos] in E. rewrite E in H8.
  apply (output_status _ _ _ _ _ _ Hw H8 Ep).
Qed.

(** non-interference *)
Lemma blind_fuse s a b ts pin pout pout' st : s_gps s = false -> s_instgps s = false -> same_post a b ->
  snd (fuse_positions s a ts pin pout st) = snd (fuse_positions s b ts pin pout' st) /\
  same_post (fst (fuse_positions s a ts pin pout st)) (fst (fuse_positions (F := F) s b ts pin pout' st)).
Proof.
  intros Hg Hi (E1 & E2 & E3 & E4 & E5 & E6 & E7). unfold fuse_positions, fused, fill_states. rewrite Hg, Hi, E1, E2, E3, E4, E5, E6, E7.
  cbn [fst snd andb negb orb]. destruct (p_empty pin); destruct (p_empty pout), (p_empty pout'); cbn; repeat split; reflexivity.
Qed.
Lemma blind_processed s pc a b f ts lm (l : level F) : same_post a b ->
  match processed s pc a f ts lm l, processed s pc b f ts lm l with
  | Ok (a', p), Ok (b', p') => same_post a' b' /\ p = p'
  | x, y => (forall v, x <> Ok v) /\ (forall v, y <> Ok v)
  end.
Proof.
  destruct a as [a1 a2 a3 a4 a5 a6 a7 a8 a9], b as [b1 b2 b3 b4 b5 b6 b7 b8 b9]. unfold same_post. cbn.
  intros (<- & <- & <- & <- & <- & <- & <-). unfold processed. cbn [po_idev po_odev po_time po_sm po_in po_out po_last po_extr po_step].
  destruct (p_empty f); [repeat split|]. destruct (negb (inside_map s l f)); [repeat split|].
  destruct (_ <=? _)%Z; [repeat split|].
  match goal with |- context [bind ?x _] => destruct x as [[sm r]| | |] end; cbn [bind]; [|split; discriminate..].
  destruct (if s_timesmooth s then time_smooth a3 r ts else (a3, r)) as [tm r'].
  unfold hold_or_move. cbn [po_last po_extr po_in].
  match goal with |- context [let '(_, _) := ?x in _] => destruct x as [last extr] end.
  destruct (project s l last) as [q| | |]; cbn [bind]; [|split; discriminate..]. repeat split.
Qed.
Lemma blind_locate k c c' ts lid rs outp outp' mi oc oc' : s_gps (cf_set k) = false -> s_instgps (cf_set k) = false ->
  same_post (c_post c) (c_post c') -> c_knn c = c_knn c' -> c_prevhead c = c_prevhead c' -> c_prevgyro c = c_prevgyro c' ->
  locate k c ts lid rs outp mi = Ok oc -> locate k c' ts lid rs outp' mi = Ok oc' ->
  same_post (oc_post oc) (oc_post oc') /\ oc_knn oc = oc_knn oc' /\ oc_flag oc = oc_flag oc' /\
  oc_ph oc = oc_ph oc' /\ oc_pg oc = oc_pg oc' /\
  (has_level (cf_col k) lid = true -> oc_pos oc = oc_pos oc' /\ oc_stat oc = oc_stat oc' /\ oc_azim oc = oc_azim oc') /\
  (has_level (cf_col k) lid = false -> oc_flag oc = false).
Proof.
  intros Hg Hi Hp Hk Hh Hy. unfold locate. destruct (has_level (cf_col k) lid) eqn:El.
  - intros H H'. inv_bind H. rename a into l. rewrite Ha in H'. cbn [bind] in H'.
    inv_bind Hb. destruct a as [kn [st inp]]. rewrite Hk in Ha0. rewrite Ha0 in H'. cbn [bind] in H'.
    destruct (@blind_fuse (cf_set k) _ _ ts inp outp outp' st Hg Hi Hp) as [F1 F2].
    destruct (fuse_positions (cf_set k) (c_post c) ts inp outp st) as [po f].
    destruct (fuse_positions (cf_set k) (c_post c') ts inp outp' st) as [po' f']. cbn [fst snd] in F1, F2. subst f'.
    inv_bind Hb0. destruct a as [[[az azv] ph] pg]. rewrite Hh, Hy in Ha1. rewrite Ha1 in H'. cbn [bind] in H'.
    inv_bind Hb. destruct a as [po1 p1]. inv_bind H'. destruct a as [po2 p2]. injection Hb0 as <-. injection Hb as <-.
    assert (G := @blind_processed (cf_set k) (cf_post k) po po' f ts (mi_lastTs mi) l F2). rewrite Ha2, Ha3 in G.
    destruct G as [G1 G2]. cbn. subst p2. repeat split; auto; try apply G1; intros; discriminate.
  - intros H H'. destruct (negb (p_empty outp)), (negb (p_empty outp')); injection H as <-; injection H' as <-; cbn;
      repeat split; auto; try apply Hp; intros; discriminate.
Qed.
Lemma blind_sf fuel s sf (m m' : stamped (sensor F)) ts : same_sensor m m' -> sf_step fuel s sf m ts = sf_step fuel s sf m' ts.
Proof.
  destruct m as [d t], m' as [d' t']. intros [E1 E2]. cbn in *. subst t'. destruct E2 as [->|[E2 E3]]; [reflexivity|].
  destruct d as [ty v], d' as [ty' v']. unfold gnss_sensor in *. cbn in *. subst ty ty'. reflexivity.
Qed.
Lemma blind_level b lev det (m m' : stamped (sensor F)) : same_sensor m m' -> level_step b lev det m = level_step b lev det m'.
Proof.
  destruct m as [d t], m' as [d' t']. intros [E1 E2]. cbn in *. subst t'. destruct E2 as [->|[E2 E3]]; [reflexivity|].
  destruct d as [ty v], d' as [ty' v']. unfold gnss_sensor in *. cbn in *. subst ty ty'. reflexivity.
Qed.
Lemma blind_update s (col : collector F) p p' m m' q : same_but_gnss m m' ->
  pp_buf p = pp_buf p' -> pp_signal p = pp_signal p' -> same_sensor (pp_sensor p) (pp_sensor p') ->
  update_measurements s col p m = Ok q ->
  exists q', update_measurements s col p' m' = Ok q' /\ pp_buf q = pp_buf q' /\ pp_cur q = pp_cur q' /\
    pp_signal q = pp_signal q' /\ same_sensor (pp_sensor q) (pp_sensor q').
Proof.
  destruct m as [d t], m' as [d' t']. intros [E1 E2] Hb Hs Hn. cbn in *. subst t'. unfold update_measurements. cbn [st_data st_ts].
  destruct E2 as [<-|[(a & b & -> & -> & Ga & Gb)|(a & b & -> & ->)]].
  - destruct d as [r|d|d]; intros H.
    + inv_bind H. rewrite Ha. cbn [bind]. destruct a; injection Hb0 as <-; eexists; (split; [reflexivity|]); cbn; rewrite ?Hb, ?Hs; auto.
    + injection H as <-. eexists; (split; [reflexivity|]); cbn; rewrite ?Hb, ?Hs. split; [auto|]. split; [auto|]. split; [auto|].
      split; [reflexivity|left; reflexivity].
    + injection H as <-. eexists; (split; [reflexivity|]); cbn; rewrite ?Hb, ?Hs; auto.
  - intros H. injection H as <-. eexists; (split; [reflexivity|]); cbn; rewrite ?Hb, ?Hs. split; [auto|]. split; [auto|]. split; [auto|].
    split; [reflexivity|right; auto].
  - intros H. injection H as <-. eexists; (split; [reflexivity|]); cbn; rewrite ?Hb, ?Hs; auto.
Qed.
Lemma blind_extract s bc (col : collector F) p p' lm q rs : pp_buf p = pp_buf p' -> pp_cur p = pp_cur p' ->
  extract_radio s bc col p lm = Ok (q, rs) ->
  exists q', extract_radio s bc col p' lm = Ok (q', rs) /\ pp_buf q = pp_buf q'.
Proof.
  intros Hb Hc. unfold extract_radio. rewrite Hb, Hc. destruct (buffer_extract _ _ _) as [b out]. intros H.
  inv_bind H. inv_bind Hb0. injection Hb1 as <- <-. rewrite Ha. cbn [bind]. rewrite Ha0. cbn [bind]. eexists. split; [reflexivity|reflexivity].
Qed.
Lemma blind_step e k c c' m m' c1 o c1' o' : s_gps (cf_set k) = false -> s_instgps (cf_set k) = false ->
  same_client c c' -> same_but_gnss m m' -> nav_step e k c m = Ok (c1, o) -> nav_step e k c' m' = Ok (c1', o') ->
  same_client c1 c1' /\ (c_flag c1 = true -> o = o').
Proof.
  intros Hg Hi (S1 & S2 & S3 & S4 & S5 & S6 & S7 & S8 & S9 & S10 & S11) Hm H H'.
  destruct (nav_step_inv _ _ _ _ H) as (pre & sf & mi & pre1 & rs & det & lev & lid & outd & outp & oc & ns
      & H1 & H2 & H3 & H4 & H5 & H6 & H7 & H8 & ->).
  destruct (nav_step_inv _ _ _ _ H') as (pre' & sf' & mi' & pre1' & rs' & det' & lev' & lid' & outd' & outp' & oc' & ns'
      & H1' & H2' & H3' & H4' & H5' & H6' & H7' & H8' & ->).
  destruct (@blind_update _ _ _ _ _ _ _ Hm S7 S9 S10 H1) as (q & Q1 & Q2 & Q3 & Q4 & Q5).
  rewrite H1' in Q1. injection Q1 as <-.
  rewrite <- S3, <- (blind_sf _ _ _ _ Q5), <- Q3, H2 in H2'. injection H2' as <- <-.
  destruct (@blind_extract _ _ _ _ _ _ _ _ Q2 Q3 H3) as (q & X1 & X2).
  rewrite H3' in X1. injection X1 as <- <-. rewrite H4 in H4'. injection H4' as <-.
  rewrite <- S1, <- (blind_level _ _ _ Q5), H5 in H5'. injection H5' as <- <-.
  rewrite <- Q3, <- Q4 in H7'.
  destruct (@blind_locate k c c' _ _ _ _ _ _ _ _ Hg Hi S11 S2 S5 S6 H7 H7') as (L1 & L2 & L3 & L4 & L5 & L6 & L7).
  destruct (extract_radio_keeps _ _ _ _ _ H3) as (K1 & K2 & K3 & K4).
  destruct (extract_radio_keeps _ _ _ _ _ H3') as (K1' & K2' & K3' & K4').
  split.
  - unfold same_client. cbn. rewrite K1, K2, K3, K1', K2', K3'. repeat (split; [assumption || reflexivity|]). assumption.
  - cbn. intros Hf. destruct (has_level _ _) eqn:Eh; [|rewrite L7 in Hf by reflexivity; discriminate].
    destruct (L6 eq_refl) as (X3 & X4 & X5). rewrite X3, X4, X5 in H8. congruence.
Qed.
Lemma same_client_states (c c' : client F) l l' : same_client c c' -> same_client (with_states c l) (with_states c' l').
Proof. exact (fun H => H). Qed.
Lemma blind_loop e k ms : forall ms' c c' prev c1 os c1' os', s_gps (cf_set k) = false -> s_instgps (cf_set k) = false ->
  same_client c c' -> Forall2 same_but_gnss ms ms' -> nav_loop e k c prev ms = Ok (c1, os) ->
  nav_loop e k c' prev ms' = Ok (c1', os') -> same_client c1 c1'.
Proof.
  induction ms as [|m ms IH]; intros ms' c c' prev c1 os c1' os' Hg Hi Hc Hm H H'; inversion Hm as [|? m' ? ms1 Hm1 Hm2]; subst.
  - injection H as <- <-. injection H' as <- <-. exact Hc.
  - cbn [nav_loop] in H, H'. rewrite <- (proj1 Hm1) in H'. destruct (_ <? _)%Z; [eapply IH; eassumption|].
    inv_bind H. destruct a as [c2 o2]. inv_bind Hb. destruct a as [c3 o3]. injection Hb0 as <- <-.
    inv_bind H'. destruct a as [c2' o2']. inv_bind Hb. destruct a as [c3' o3']. injection Hb0 as <- <-.
    eapply IH; [exact Hg|exact Hi| |exact Hm2|exact Ha0|exact Ha2].
    exact (proj1 (@blind_step e k c c' m m' _ _ _ _ Hg Hi Hc Hm1 Ha Ha1)).
Qed.
Lemma blind_history e k bs : forall bs' c c' c1 os c1' os', s_gps (cf_set k) = false -> s_instgps (cf_set k) = false ->
  same_client c c' -> Forall2 (Forall2 same_but_gnss) bs bs' -> navigate_all e k c bs = Ok (c1, os) ->
  navigate_all e k c' bs' = Ok (c1', os') -> same_client c1 c1'.
Proof.
  induction bs as [|b bs IH]; intros bs' c c' c1 os c1' os' Hg Hi Hc Hm H H'; inversion Hm as [|? b' ? bs1 Hm1 Hm2]; subst.
  - injection H as <- <-. injection H' as <- <-. exact Hc.
  - cbn [navigate_all] in H, H'.
    inv_bind H. destruct a as [c2 o2]. inv_bind Hb. destruct a as [c3 o3]. injection Hb0 as <- <-.
    inv_bind H'. destruct a as [c2' o2']. inv_bind Hb. destruct a as [c3' o3']. injection Hb0 as <- <-.
    eapply IH; [exact Hg|exact Hi| |exact Hm2|exact Ha0|exact Ha2].
    destruct Hm1 as [|m m' ms ms' Hm1 Hms]; [injection Ha as <- <-; injection Ha1 as <- <-; exact Hc|].
    unfold navigate in Ha, Ha1. rewrite <- (proj1 Hm1) in Ha1.
    eapply blind_loop; [exact Hg|exact Hi| | |exact Ha|exact Ha1]; [exact Hc|constructor; assumption].
Qed.
Lemma same_client_refl (c : client F) : same_client c c.
Proof. unfold same_client, same_post, same_sensor. repeat split; auto. Qed.

(** ** C30 *)
Lemma replay_pedometer e k c m c' o : not_sensor m -> nav_step e k c m = Ok (c', o) ->
  s_type (st_data (pp_sensor (c_pre c))) = ACCELEROMETER ->
  pp_sensor (c_pre c') = pp_sensor (c_pre c) /\
  exists gone, pd_acc (sf_ped (c_sf c)) ++ [pp_sensor (c_pre c)] = gone ++ pd_acc (sf_ped (c_sf c')) /\
    (pd_acc (sf_ped (c_sf c')) <> []).
Proof.
  intros Hn H Ht. destruct (nav_step_inv _ _ _ _ H) as (pre & sf & mi & pre1 & rs & det & lev & lid & outd & outp & oc & ns
      & H1 & H2 & H3 & H4 & H5 & H6 & H7 & H8 & ->). cbn [c_pre c_sf].
  destruct (extract_radio_keeps _ _ _ _ _ H3) as (_ & _ & K3 & _).
  assert (Es : pp_sensor pre = pp_sensor (c_pre c)).
  { unfold update_measurements in H1. unfold not_sensor in Hn. destruct (st_data m) as [r|d|d]; [|contradiction|].
    - inv_bind H1. destruct a; injection Hb as <-; reflexivity.
    - injection H1 as <-. reflexivity. }
  split; [congruence|]. rewrite Es in H2. clear - H2 Ht.
  unfold sf_step in H2. inv_bind H2. rename a into p1. inv_bind Hb. destruct a as [p2 st]. inv_bind Hb0.
  assert (E : sf_ped sf = p2) by (destruct (if s_calcaz _ then _ else _) as [az azv]; destruct st; injection Hb as <- _; reflexivity).
  rewrite E. clear Hb E.
  assert (E : pd_acc p2 = pd_acc p1).
  { unfold ped_steps in Ha0. destruct (Nat.leb _ _); [injection Ha0 as <- <-; reflexivity|].
    inv_bind Ha0. destruct a0 as [[[? ?] ?] ?]. inv_bind Hb. injection Hb0 as <- <-. reflexivity. }
  rewrite E. clear Ha0 E. unfold ped_update in Ha. rewrite Ht in Ha. inv_bind Ha. inv_bind Hb. injection Hb0 as <-. cbn.
  match goal with H : skip_while _ _ = Ok ?v |- _ => revert H; generalize v end.
  generalize (pd_acc (sf_ped (c_sf c)) ++ [pp_sensor (c_pre c)]). intros l. induction l as [|x l IH]; intros a9; cbn; [discriminate|].
  match goal with |- (if ?b then _ else _) = _ -> _ => destruct b end; intros E.
  - destruct (IH _ E) as (gone & G1 & G2). exists (x :: gone). split; [cbn; f_equal; exact G1|exact G2].
  - injection E as <-. exists []. split; [reflexivity|discriminate].
Qed.

Lemma replay_fix s (col : collector F) o ts sen nm fl before l after la lo acc :
  s_sigma s = false -> ((num_sats nm =? 0) || (s_minsats s <=? num_sats nm))%Z = true ->
  st_data sen = mkSensor LOCATION (mkV la lo acc) ->
  col_levels col = before ++ l :: after -> (s_gpsoutside s = true \/ gnss_inside la lo l) ->
  Forall (fun l' => s_gpsoutside s = false /\ ~ gnss_inside la lo l') before ->
  exists o', outdoor_position s col o ts sen nm fl = Ok (o', location_fix s l la lo acc ts) /\
    ou_last o' = location_fix s l la lo acc ts.
Proof.
  intros Hs Hm Hd Hc Hl Hb. unfold outdoor_position, gps_of. rewrite Hd. cbn [s_type s_val vx vy vz]. cbv zeta.
  assert (Ef : find (gps_on_level s la lo) (col_levels col) = Some l).
  { rewrite Hc. clear Hc. induction Hb as [|x before [Hx1 Hx2] _ IH]; cbn.
    - apply gps_on_level_spec in Hl. rewrite Hl. reflexivity.
    - destruct (gps_on_level s la lo x) eqn:E; [|exact IH]. apply gps_on_level_spec in E. destruct E; [congruence|contradiction]. }
  rewrite Ef, Hs, andb_false_r. cbn [bind].
  assert (E : negb true || negb (num_sats nm =? 0)%Z && (num_sats nm <? s_minsats s)%Z = false).
  { cbn. rewrite Z.ltb_antisym. destruct (num_sats nm =? 0)%Z, (s_minsats s <=? num_sats nm)%Z; cbn in *; congruence. }
  rewrite E. eexists. split; reflexivity.
Qed.
Lemma replay_step e k c m c' o before l after la lo acc :
  s_sigma (cf_set k) = false -> ((num_sats (pp_nmea (c_pre c)) =? 0) || (s_minsats (cf_set k) <=? num_sats (pp_nmea (c_pre c))))%Z = true ->
  st_data (pp_sensor (c_pre c)) = mkSensor LOCATION (mkV la lo acc) ->
  col_levels (cf_col k) = before ++ l :: after -> (s_gpsoutside (cf_set k) = true \/ gnss_inside la lo l) ->
  Forall (fun l' => s_gpsoutside (cf_set k) = false /\ ~ gnss_inside la lo l') before ->
  is_radio m -> nav_step e k c m = Ok (c', o) ->
  ou_last (c_outd c') = location_fix (cf_set k) l la lo acc (st_ts m) /\
  pp_sensor (c_pre c') = pp_sensor (c_pre c) /\ pp_nmea (c_pre c') = pp_nmea (c_pre c) /\
  outdoor_position (cf_set k) (cf_col k) (c_outd c) (st_ts m) (pp_sensor (c_pre c')) (pp_nmea (c_pre c')) (c_flag c) =
    Ok (c_outd c', location_fix (cf_set k) l la lo acc (st_ts m)).
Proof.
  intros Hs Hn Hd Hc Hl Hb Hm H. destruct (nav_step_inv _ _ _ _ H) as (pre & sf & mi & pre1 & rs & det & lev & lid & outd & outp & oc & ns
      & H1 & H2 & H3 & H4 & H5 & H6 & H7 & H8 & ->). cbn [c_pre c_outd].
  destruct (extract_radio_keeps _ _ _ _ _ H3) as (_ & _ & K3 & K4). assert (Ec := update_cur _ _ _ _ H1).
  assert (Es : pp_sensor pre = pp_sensor (c_pre c) /\ pp_nmea pre = pp_nmea (c_pre c)).
  { unfold update_measurements in H1. unfold is_radio in Hm. destruct (st_data m) as [r|d|d]; [|contradiction..].
    inv_bind H1. destruct a; injection Hb0 as <-; split; reflexivity. }
  destruct Es as [Es En]. rewrite K3, K4, Es, En. rewrite Es, En, Ec in H6.
  destruct (@replay_fix (cf_set k) (cf_col k) (c_outd c) (st_ts m) _ _ (c_flag c) before l after la lo acc Hs Hn Hd Hc Hl Hb) as (o' & E1 & E2).
  rewrite E1 in H6. injection H6 as <- <-. auto.
Qed.
Lemma replay_forever e k ms : forall c m c' os before l after la lo acc,
  s_sigma (cf_set k) = false -> ((num_sats (pp_nmea (c_pre c)) =? 0) || (s_minsats (cf_set k) <=? num_sats (pp_nmea (c_pre c))))%Z = true ->
  st_data (pp_sensor (c_pre c)) = mkSensor LOCATION (mkV la lo acc) ->
  col_levels (cf_col k) = before ++ l :: after -> (s_gpsoutside (cf_set k) = true \/ gnss_inside la lo l) ->
  Forall (fun l' => s_gpsoutside (cf_set k) = false /\ ~ gnss_inside la lo l') before ->
  Forall is_radio (ms ++ [m]) -> process e k c (ms ++ [m]) = Ok (c', os) ->
  ou_last (c_outd c') = location_fix (cf_set k) l la lo acc (st_ts m).
Proof.
  induction ms as [|x ms IH]; intros c m c' os before l after la lo acc Hs Hn Hd Hc Hl Hb Hm H; cbn [app process] in H.
  - inv_bind H. destruct a as [c1 o1]. injection Hb0 as <- <-. inversion_clear Hm.
    eapply replay_step in Ha; [apply Ha|eassumption..].
  - inv_bind H. destruct a as [c1 o1]. inv_bind Hb0. destruct a as [c2 o2]. injection Hb1 as <- <-. inversion_clear Hm as [|? ? Hx Hms].
    destruct (@replay_step e k c x c1 o1 before l after la lo acc Hs Hn Hd Hc Hl Hb Hx Ha) as (_ & E1 & E2 & _).
    eapply IH; [exact Hs| | |exact Hc|exact Hl|exact Hb|exact Hms|exact Ha0]; [rewrite E2; exact Hn|rewrite E1; exact Hd].
Qed.
(** the fix stays the reported position while only rejected radio measurements arrive *)
Lemma replay_report e k ms : forall c c' os before l after la lo acc,
  wf_collector (cf_col k) -> has_level (cf_col k) "" = false ->
  s_sigma (cf_set k) = false -> ((num_sats (pp_nmea (c_pre c)) =? 0) || (s_minsats (cf_set k) <=? num_sats (pp_nmea (c_pre c))))%Z = true ->
  st_data (pp_sensor (c_pre c)) = mkSensor LOCATION (mkV la lo acc) ->
  col_levels (cf_col k) = before ++ l :: after -> (s_gpsoutside (cf_set k) = true \/ gnss_inside la lo l) ->
  Forall (fun l' => s_gpsoutside (cf_set k) = false /\ ~ gnss_inside la lo l') before ->
  Forall (fun m => is_radio m /\ stale k c m) ms -> process e k c ms = Ok (c', os) ->
  Forall2 (fun m o => same_place (cf_col k) (location_fix (cf_set k) l la lo acc (st_ts m)) o) ms os.
Proof.
  induction ms as [|x ms IH]; intros c c' os before l after la lo acc Hw Hz Hs Hn Hd Hc Hl Hb Hm H; cbn [process] in H.
  - injection H as <- <-. constructor.
  - inv_bind H. destruct a as [c1 o1]. inv_bind Hb0. destruct a as [c2 o2]. injection Hb1 as <- <-. inversion_clear Hm as [|? ? Hx Hms].
    destruct Hx as [Hx1 Hx2].
    destruct (@replay_step e k c x c1 o1 before l after la lo acc Hs Hn Hd Hc Hl Hb Hx1 Ha) as (_ & E1 & E2 & E3).
    constructor.
    + destruct (gnss_reported e Hw Hz Hx2 Ha) as (outp & G1 & G2). rewrite E3 in G1. injection G1 as <-. apply G2. reflexivity.
    + assert (Esig : pp_signal (c_pre c1) = pp_signal (c_pre c)).
      { destruct (nav_step_inv _ _ _ _ Ha) as (pre & sf & mi & pre1 & rs & det & lev & lid & outd & outp & oc & ns
          & H1 & H2 & H3 & H4 & H5 & H6 & H7 & H8 & ->). cbn [c_pre].
        destruct (extract_radio_keeps _ _ _ _ _ H3) as (_ & X & _ & _).
        destruct (update_no_radio _ _ _ Hw (proj1 Hx2) H1) as (Y & _ & _). congruence. }
      eapply IH; [exact Hw|exact Hz|exact Hs| | |exact Hc|exact Hl|exact Hb| |exact Ha0];
        [rewrite E2; exact Hn|rewrite E1; exact Hd|].
      eapply Forall_impl; [|exact Hms]. intros y [Y1 [Y2 Y3]]. split; [exact Y1|]. split; [exact Y2|]. rewrite Esig; exact Y3.
Qed.
End Gnss.

Section Link.
Context {F : Type} {NF : Num F} {SO : Sorter}.
(** the outdoor estimator inside the client *)
Lemma outdoor_run_app s (col : collector F) cs1 : forall o cs2, outdoor_run s col o (cs1 ++ cs2) =
  ('(o1, p1) <- outdoor_run s col o cs1 ;; '(o2, p2) <- outdoor_run s col o1 cs2 ;; Ok (o2, p1 ++ p2)).
Proof.
  induction cs1 as [|x cs1 IH]; intros o cs2; cbn [app outdoor_run bind].
  - destruct (outdoor_run s col o cs2) as [[o2 p2]| | |]; reflexivity.
  - destruct (outdoor_position _ _ _ _ _ _ _) as [[o1 p1]| | |]; cbn [bind]; try reflexivity. rewrite IH.
    destruct (outdoor_run s col o1 cs1) as [[o2 p2]| | |]; cbn [bind]; try reflexivity.
    destruct (outdoor_run s col o2 cs2) as [[o3 p3]| | |]; reflexivity.
Qed.
Lemma client_outdoor e k ms : forall c c' os, process e k c ms = Ok (c', os) ->
  exists cs ps, outdoor_run (cf_set k) (cf_col k) (c_outd c) cs = Ok (c_outd c', ps) /\ map (@ca_ts F) cs = map (@st_ts _) ms.
Proof.
  induction ms as [|m ms IH]; intros c c' os H; cbn [process] in H.
  - injection H as <- <-. exists [], []. split; reflexivity.
  - inv_bind H. destruct a as [c1 o1]. inv_bind Hb. destruct a as [c2 o2]. injection Hb0 as <- <-.
    destruct (IH _ _ _ Ha0) as (cs & ps & E1 & E2).
    destruct (nav_step_inv _ _ _ _ Ha) as (pre & sf & mi & pre1 & rs & det & lev & lid & outd & outp & oc & ns
          & H1 & H2 & H3 & H4 & H5 & H6 & H7 & H8 & ->). cbn [c_outd] in E1.
    exists (mkCall (pp_cur pre) (pp_sensor pre) (pp_nmea pre) (c_flag c) :: cs), (outp :: ps).
    cbn [outdoor_run ca_ts ca_sensor ca_nmea ca_indoor map]. rewrite H6. cbn [bind]. rewrite E1. cbn [bind]. rewrite E2, (update_cur _ _ _ _ H1).
    split; reflexivity.
Qed.
Lemma client_outdoor_all e k bs : forall c c' os, navigate_all e k c bs = Ok (c', os) ->
  exists cs ps, outdoor_run (cf_set k) (cf_col k) (c_outd c) cs = Ok (c_outd c', ps) /\
    map (@ca_ts F) cs = List.concat (map (fun b => map (@st_ts _) (accepted b)) bs).
Proof.
  induction bs as [|b bs IH]; intros c c' os H; cbn [navigate_all] in H.
  - injection H as <- <-. exists [], []. split; reflexivity.
  - inv_bind H. destruct a as [c1 o1]. inv_bind Hb. destruct a as [c2 o2]. injection Hb0 as <- <-.
    destruct (IH _ _ _ Ha0) as (cs & ps & E1 & E2). destruct b as [|m b].
    + injection Ha as <- <-. exists cs, ps. split; [exact E1|exact E2].
    + rewrite navigate_process in Ha by discriminate.
      destruct (client_outdoor _ _ _ _ Ha) as (cs0 & ps0 & E3 & E4). cbn [clear_states c_outd] in E3.
      exists (cs0 ++ cs), (ps0 ++ ps). rewrite outdoor_run_app, E3. cbn [bind]. rewrite E1. cbn [bind].
      split; [reflexivity|]. rewrite map_app, E2, E4. reflexivity.
Qed.
Lemma no_window e k c m la lo acc l : reachable e k c ->
  s_sigma (cf_set k) = true -> s_sigmawin (cf_set k) = 0%nat ->
  st_data m = MSensor (mkSensor LOCATION (mkV la lo acc)) -> st_ts m <> p_ts (ou_last (c_outd c)) ->
  In l (col_levels (cf_col k)) -> (s_gpsoutside (cf_set k) = true \/ gnss_inside la lo l) ->
  (forall n, outdoor_position (cf_set k) (cf_col k) (c_outd c) (st_ts m)
     (mkSt (mkSensor LOCATION (mkV la lo acc)) (st_ts m)) n (c_flag c) = UB) /\
  (forall r, nav_step e k c m <> Ok r).
Proof.
  intros Hr Hs Hw Hm Ht Hl Hg. assert (Hb := buf_reachable Hr). rewrite Hw in Hb.
  assert (Hb0 : ou_buf (c_outd c) = []) by (destruct (ou_buf (c_outd c)); [reflexivity|cbn in Hb; lia]).
  assert (U : forall n, outdoor_position (cf_set k) (cf_col k) (c_outd c) (st_ts m)
     (mkSt (mkSensor LOCATION (mkV la lo acc)) (st_ts m)) n (c_flag c) = UB).
  { intros n. eapply window_zero; try eassumption. reflexivity. }
  split; [exact U|]. intros [c' o] H.
  destruct (nav_step_inv _ _ _ _ H) as (pre & sf & mi & pre1 & rs & det & lev & lid & outd & outp & oc & ns
          & H1 & H2 & H3 & H4 & H5 & H6 & H7 & H8 & _).
  unfold update_measurements in H1. rewrite Hm in H1. injection H1 as <-. cbn [pp_cur pp_sensor pp_nmea] in H6.
  rewrite U in H6. discriminate.
Qed.
End Link.
