(** C121: the gyroscope, the magnetometer and the orientation sensor change
    nothing but the reported orientation. *)
From Verif Require Import Lib NumFloat SortInst Client Spec_Preproc Spec_Client Spec_Compass Pf_Client Ex P_Client.
From Coq Require Import Lia.
Set Implicit Arguments.
Local Open Scope string_scope.
Local Open Scope list_scope.
#[local] Existing Instance nf.
#[local] Existing Instance isorter.

Section Twins.
Context {F : Type} {NF : Num F} {SO : Sorter}.

Definition stamped_alike (b : bool) (m m' : stamped (sensor F)) : Prop :=
  st_ts m = st_ts m' /\ sensor_alike b (st_data m) (st_data m').
Definition reoriented (k : config F) (enu calc : bool) (life : F) : config F :=
  mkConfig (with_orientation (cf_set k) enu calc life) (cf_col k) (cf_buf k) (cf_post k) (cf_kt k).
Record pre_twins (b : bool) (p p' : preproc F) : Prop := {
  pt_buf : pp_buf p = pp_buf p'; pt_cur : pp_cur p = pp_cur p'; pt_sig : pp_signal p = pp_signal p';
  pt_sen : stamped_alike b (pp_sensor p) (pp_sensor p'); pt_nm : pp_nmea p = pp_nmea p' }.
Record twins (b : bool) (c c' : client F) : Prop := {
  tw_lev : c_lev c = c_lev c'; tw_knn : c_knn c = c_knn c'; tw_pre : pre_twins b (c_pre c) (c_pre c');
  tw_outd : c_outd c = c_outd c'; tw_post : c_post c = c_post c';
  tw_ped : sf_ped (c_sf c) = sf_ped (c_sf c'); tw_steps : sf_steps (c_sf c) = sf_steps (c_sf c');
  tw_states : c_states c = c_states c'; tw_pos : c_pos c = c_pos c'; tw_flag : c_flag c = c_flag c' }.

(** samples alike are equal or of a loose kind *)
Lemma alike_cases b m m' : stamped_alike b m m' -> m = m' \/
  (st_ts m = st_ts m' /\ s_type (st_data m) = s_type (st_data m') /\ loose b (s_type (st_data m))).
Proof.
  intros [E [T [V|L]]]; [left|right; auto]. destruct m as [[t v] ts], m' as [[t' v'] ts']. cbn in *. congruence.
Qed.
Lemma ped_alike b m m' p : stamped_alike b m m' -> ped_update p m = ped_update (F:=F) p m'.
Proof.
  intros H. destruct (alike_cases H) as [->|(E & T & L)]; [reflexivity|]. unfold ped_update. rewrite <- T.
  destruct (s_type (st_data m)); try reflexivity. destruct L.
Qed.
Lemma outdoor_alike b s (col : collector F) o ts m m' n fl : stamped_alike b m m' ->
  outdoor_position s col o ts m n fl = outdoor_position s col o ts m' n fl.
Proof.
  intros H. destruct (alike_cases H) as [->|(E & T & L)]; [reflexivity|]. unfold outdoor_position, gps_of. rewrite <- T.
  destruct (s_type (st_data m)); try reflexivity. destruct L.
Qed.
Lemma level_alike b e det m m' : stamped_alike b m m' -> level_step (F:=F) b e det m = level_step b e det m'.
Proof.
  intros H. destruct (alike_cases H) as [->|(E & T & L)]; [reflexivity|]. unfold level_step. destruct (hist_step _ _) as [h lid].
  destruct b; [|reflexivity]. unfold baro_step, baro_update_buffers. rewrite <- T. destruct (s_type (st_data m)); try reflexivity. discriminate L.
Qed.
Lemma update_alike b s (col : collector F) p p' m m' q q' : pre_twins b p p' -> alike b m m' ->
  update_measurements s col p m = Ok q -> update_measurements s col p' m' = Ok q' -> pre_twins b q q'.
Proof.
  intros [P1 P2 P3 P4 P5] [E D] H H'. unfold update_measurements in *. cbv zeta in *.
  destruct (st_data m) as [r|d|d], (st_data m') as [r'|d'|d']; try discriminate D.
  - injection D as <-. destruct (valid_signal s col r) as [v| | |]; try discriminate H. cbn [bind] in *.
    rewrite <- P1, <- E in H'. destruct v; injection H as <-; injection H' as <-; constructor; cbn; auto.
  - injection H as <-; injection H' as <-. constructor; cbn; auto. split; cbn; auto.
  - injection D as <-. injection H as <-; injection H' as <-. rewrite <- E. constructor; cbn; auto.
Qed.
Lemma extract_alike b s bc (col : collector F) p p' t q ms q' ms' : pre_twins b p p' ->
  extract_radio s bc col p t = Ok (q, ms) -> extract_radio s bc col p' t = Ok (q', ms') -> ms = ms' /\ pre_twins b q q'.
Proof.
  intros [P1 P2 P3 P4 P5] H H'. unfold extract_radio in *. rewrite <- P1 in H'. destruct (buffer_extract _ _ _) as [bb out].
  destruct (closest_aps s out) as [sel| | |]; try discriminate H. cbn [bind] in *.
  destruct (mapM _ sel) as [o| | |]; try discriminate H. cbn [bind] in *. injection H as <- <-. injection H' as <- <-.
  split; [reflexivity|]. constructor; cbn; auto.
Qed.
Lemma sf_alike b n s s' (f f' : sfusion F) m m' ts g i g' i' : stamped_alike b m m' ->
  s_stepmult s = s_stepmult s' -> sf_ped f = sf_ped f' -> sf_steps f = sf_steps f' ->
  sf_step n s f m ts = Ok (g, i) -> sf_step n s' f' m' ts = Ok (g', i') ->
  sf_ped g = sf_ped g' /\ sf_steps g = sf_steps g' /\ mi_lastTs i = mi_lastTs i' /\ mi_count i = mi_count i' /\ mi_dist i = mi_dist i'.
Proof.
  intros A E0 E1 E2 H H'. unfold sf_step in *. rewrite <- E0, <- E1, <- E2, <- (ped_alike _ A) in H'.
  destruct (ped_update (sf_ped f) m) as [p| | |]; try discriminate H. cbn [bind] in *.
  destruct (ped_steps p) as [[p1 steps]| | |]; try discriminate H. cbn [bind] in *.
  destruct (cf_update n (cf_conf s) (sf_cf f) m) as [c1| | |]; try discriminate H. cbn [bind] in *.
  destruct (cf_update n (cf_conf s') (sf_cf f') m') as [c2| | |]; try discriminate H'. cbn [bind] in *. cbv zeta in *.
  destruct (if s_calcaz s then _ else _) as [az azv]. destruct (if s_calcaz s' then _ else _) as [az' azv'].
  destruct steps; injection H as <- <-; injection H' as <- <-; cbn; auto.
Qed.
Lemma locate_alike k enu calc life c c' ts lid (ms : list (radio F)) outp i i' oc oc' :
  c_knn c = c_knn c' -> c_post c = c_post c' -> c_pos c = c_pos c' -> mi_lastTs i = mi_lastTs i' ->
  locate k c ts lid ms outp i = Ok oc -> locate (reoriented k enu calc life) c' ts lid ms outp i' = Ok oc' ->
  oc_knn oc = oc_knn oc' /\ oc_post oc = oc_post oc' /\ oc_pos oc = oc_pos oc' /\ oc_flag oc = oc_flag oc' /\ oc_stat oc = oc_stat oc'.
Proof.
  intros E1 E2 E3 E4 H H'. unfold locate in *. cbv zeta in *. cbn [reoriented cf_set cf_col cf_post] in H'.
  change (indoor (reoriented k enu calc life)) with (indoor k) in H'.
  change (fuse_positions (with_orientation (cf_set k) enu calc life)) with (fuse_positions (cf_set k)) in H'.
  change (processed (with_orientation (cf_set k) enu calc life)) with (processed (cf_set k)) in H'.
  destruct (has_level _ _).
  - rewrite <- E1, <- E2, <- E4 in H'. destruct (get_level _ _) as [l| | |]; try discriminate H. cbn [bind] in *.
    destruct (indoor _ _ _ _ _) as [[kn [st inp]]| | |]; try discriminate H. cbn [bind] in *.
    destruct (fuse_positions _ _ _ _ _ _) as [po f].
    destruct (heading_step (c_prevhead c) _ _ _) as [[[[az azv] ph] pg]| | |]; try discriminate H. cbn [bind] in *.
    destruct (heading_step _ _ _ _) as [[[[az' azv'] ph'] pg']| | |]; try discriminate H'. cbn [bind] in *.
    destruct (processed _ _ _ _ _ _ _) as [[po2 p2]| | |]; try discriminate H. cbn [bind] in *.
    injection H as <-. injection H' as <-. cbn. auto.
  - rewrite <- E1, <- E2, <- E3 in H'. destruct (negb (p_empty outp)); injection H as <-; injection H' as <-; cbn; auto.
Qed.
Lemma output_alike e k enu calc life p st az az' (ms : list (radio F)) o o' :
  output e k p st az ms = Ok o -> output e (reoriented k enu calc life) p st az' ms = Ok o' -> same_but_orientation o o'.
Proof.
  intros H H'. change (output e (reoriented k enu calc life)) with (output e k) in H'. unfold output in *. destruct (p_empty p).
  - injection H as <-. injection H' as <-. repeat split; auto.
  - match type of H with bind ?x _ = _ => destruct x as [[[la lo] al]| | |] end; try discriminate H. cbn [bind] in *.
    destruct (to_mpp _ az) as [a| | |]; try discriminate H. destruct (to_mpp _ az') as [a'| | |]; try discriminate H'. cbn [bind] in *.
    injection H as <-. injection H' as <-. repeat split; try reflexivity; cbn; discriminate.
Qed.

Lemma step_alike e k enu calc life c c' m m' d o d' o' : twins (s_baro (cf_set k)) c c' -> alike (s_baro (cf_set k)) m m' ->
  nav_step e k c m = Ok (d, o) -> nav_step e (reoriented k enu calc life) c' m' = Ok (d', o') ->
  twins (s_baro (cf_set k)) d d' /\ same_but_orientation o o'.
Proof.
  intros [T1 T2 T3 T4 T5 T6 T7 T8 T9 T10] A H H'. unfold nav_step in *. cbv zeta in *.
  change (cf_set (reoriented k enu calc life)) with (with_orientation (cf_set k) enu calc life) in H'.
  change (cf_col (reoriented k enu calc life)) with (cf_col k) in H'. change (cf_buf (reoriented k enu calc life)) with (cf_buf k) in H'.
  change (update_measurements (with_orientation (cf_set k) enu calc life)) with (update_measurements (cf_set k)) in H'.
  change (extract_radio (with_orientation (cf_set k) enu calc life)) with (extract_radio (cf_set k)) in H'.
  change (detect (reoriented k enu calc life)) with (detect k) in H'.
  change (s_baro (with_orientation (cf_set k) enu calc life)) with (s_baro (cf_set k)) in H'.
  change (outdoor_position (with_orientation (cf_set k) enu calc life)) with (outdoor_position (cf_set k)) in H'.
  change (drop_level (with_orientation (cf_set k) enu calc life)) with (drop_level (F:=F) (cf_set k)) in H'.
  destruct (update_measurements _ _ (c_pre c) m) as [p| | |] eqn:U; try discriminate H.
  destruct (update_measurements _ _ (c_pre c') m') as [p'| | |] eqn:U'; try discriminate H'. cbn [bind] in *.
  assert (P := update_alike _ _ T3 A U U'). destruct P as [P1 P2 P3 P4 P5].
  destruct (sf_step _ _ _ (pp_sensor p) _) as [[sf mi]| | |] eqn:S; try discriminate H.
  destruct (sf_step _ _ _ (pp_sensor p') _) as [[sf' mi']| | |] eqn:S'; try discriminate H'. cbn [bind] in *.
  rewrite <- P2 in S'. destruct (sf_alike _ (cf_set k) (with_orientation (cf_set k) enu calc life) _ _ _ P4 eq_refl T6 T7 S S') as (S1 & S2 & S3 & S4 & S5).
  destruct (extract_radio _ _ _ p _) as [[q ms]| | |] eqn:X; try discriminate H.
  destruct (extract_radio _ _ _ p' _) as [[q' ms']| | |] eqn:X'; try discriminate H'. cbn [bind] in *.
  rewrite <- S3 in X'. destruct (extract_alike _ _ _ _ (@Build_pre_twins _ p p' P1 P2 P3 P4 P5) X X') as [<- Q].
  destruct (detect k ms) as [det| | |]; try discriminate H. cbn [bind] in *.
  rewrite <- (level_alike _ _ P4), <- T1 in H'.
  destruct (level_step _ (c_lev c) det (pp_sensor p)) as [lev lid].
  rewrite <- T4, <- P2, <- P5, <- T10, <- (outdoor_alike _ _ _ _ _ _ P4) in H'.
  destruct (outdoor_position _ _ _ _ _ _ _) as [[outd outp]| | |]; try discriminate H. cbn [bind] in *.
  rewrite <- P3, <- S3 in H'.
  destruct (locate k c _ _ _ _ _) as [oc| | |] eqn:L; try discriminate H.
  destruct (locate (reoriented k enu calc life) c' _ _ _ _ _) as [oc'| | |] eqn:L'; try discriminate H'. cbn [bind] in *.
  edestruct locate_alike as (L1 & L2 & L3 & L4 & L5); [exact T2|exact T5|exact T9|exact S3|exact L|exact L'|].
  rewrite <- L1, <- L2, <- L3, <- L4, <- L5, <- S4, <- S5, <- T8 in H'.
  destruct (output e k _ _ (oc_azim oc) _) as [x| | |] eqn:O; try discriminate H.
  destruct (output e (reoriented k enu calc life) _ _ (oc_azim oc') _) as [x'| | |] eqn:O'; try discriminate H'. cbn [bind] in *.
  injection H as <- <-. injection H' as <- <-. split; [constructor; cbn; auto|]. eapply output_alike; [exact O|exact O'].
Qed.

Lemma loop_alike e k enu calc life ms : forall ms' c c' prev d os d' os', twins (s_baro (cf_set k)) c c' ->
  Forall2 (alike (s_baro (cf_set k))) ms ms' ->
  nav_loop e k c prev ms = Ok (d, os) -> nav_loop e (reoriented k enu calc life) c' prev ms' = Ok (d', os') ->
  twins (s_baro (cf_set k)) d d' /\ Forall2 same_but_orientation os os'.
Proof.
  induction ms as [|m t IH]; intros ms' c c' prev d os d' os' T A H H'; inversion A as [|? m' ? t' A1 A2]; subst; cbn [nav_loop] in *.
  - injection H as <- <-. injection H' as <- <-. auto.
  - rewrite <- (proj1 A1) in H'. destruct (_ <? _)%Z; [eapply IH; eassumption|].
    destruct (nav_step e k c m) as [[c1 o]| | |] eqn:S; try discriminate H.
    destruct (nav_step e (reoriented k enu calc life) c' m') as [[c1' o']| | |] eqn:S'; try discriminate H'. cbn [bind] in *.
    edestruct step_alike as [T1 O]; [exact T|exact A1|exact S|exact S'|].
    destruct (nav_loop e k c1 _ t) as [[c2 r]| | |] eqn:N; try discriminate H.
    destruct (nav_loop e (reoriented k enu calc life) c1' _ t') as [[c2' r']| | |] eqn:N'; try discriminate H'. cbn [bind] in *.
    injection H as <- <-. injection H' as <- <-. edestruct IH as [T2 R]; [exact T1|exact A2|exact N|exact N'|]. auto.
Qed.
Lemma call_alike e k enu calc life b b' c c' d os d' os' : twins (s_baro (cf_set k)) c c' -> Forall2 (alike (s_baro (cf_set k))) b b' ->
  navigate e k c b = Ok (d, os) -> navigate e (reoriented k enu calc life) c' b' = Ok (d', os') ->
  twins (s_baro (cf_set k)) d d' /\ Forall2 same_but_orientation os os'.
Proof.
  intros T A H H'. unfold navigate in *. inversion A as [|m m' t t' A1 A2]; subst.
  - injection H as <- <-. injection H' as <- <-. auto.
  - rewrite <- (proj1 A1) in H'. eapply loop_alike; [|exact A|exact H|exact H'].
    destruct T as [T1 T2 T3 T4 T5 T6 T7 T8 T9 T10]. unfold clear_states. constructor; cbn; auto.
Qed.
Lemma calls_alike e k enu calc life bs : forall bs' c c' d os d' os', twins (s_baro (cf_set k)) c c' ->
  Forall2 (Forall2 (alike (s_baro (cf_set k)))) bs bs' ->
  navigate_all e k c bs = Ok (d, os) -> navigate_all e (reoriented k enu calc life) c' bs' = Ok (d', os') ->
  twins (s_baro (cf_set k)) d d' /\ Forall2 (Forall2 same_but_orientation) os os'.
Proof.
  induction bs as [|b t IH]; intros bs' c c' d os d' os' T A H H'; inversion A as [|? b' ? t' A1 A2]; subst; cbn [navigate_all] in *.
  - injection H as <- <-. injection H' as <- <-. auto.
  - destruct (navigate e k c b) as [[c1 o]| | |] eqn:S; try discriminate H.
    destruct (navigate e (reoriented k enu calc life) c' b') as [[c1' o']| | |] eqn:S'; try discriminate H'. cbn [bind] in *.
    edestruct call_alike as [T1 O]; [exact T|exact A1|exact S|exact S'|].
    destruct (navigate_all e k c1 t) as [[c2 r]| | |] eqn:N; try discriminate H.
    destruct (navigate_all e (reoriented k enu calc life) c1' t') as [[c2' r']| | |] eqn:N'; try discriminate H'. cbn [bind] in *.
    injection H as <- <-. injection H' as <- <-. edestruct IH as [T2 R]; [exact T1|exact A2|exact N|exact N'|]. auto.
Qed.

(** two histories of calls whose samples of the loose kinds show anything, in
    clients with any settings of the orientation: the outputs differ in the
    orientation only and getStates() is the same *)
Lemma garbage_twins k enu calc life g g' : garbage_alike (s_baro (cf_set k)) g g' ->
  twins (s_baro (cf_set k)) (client0 g (cf_set k)) (client0 g' (with_orientation (cf_set k) enu calc life)).
Proof. intros (G1 & G2 & G3 & G4). constructor; try reflexivity. constructor; cbn; auto. split; assumption. Qed.
Lemma built_reoriented s gs k enu calc life k' : built s gs k -> built (with_orientation s enu calc life) gs k' ->
  k' = reoriented k enu calc life /\ cf_set k = s.
Proof.
  intros (col & C & M) (col' & C' & M'). assert (col' = col) by congruence. subst col'. unfold mk_config in *.
  change (is_knn (with_orientation s enu calc life)) with (is_knn s) in M'.
  change (zone_tables (with_orientation s enu calc life) col) with (zone_tables s col) in M'.
  change (buffer_config (with_orientation s enu calc life)) with (buffer_config s) in M'.
  change (post_config (with_orientation s enu calc life)) with (post_config s) in M'.
  repeat match type of M with bind ?x _ = _ => destruct x; try discriminate M; cbn [bind] in M, M' end.
  injection M as <-. injection M' as <-. split; reflexivity.
Qed.
Theorem C121_settings (e : env F) (s : settings F) enu calc life gs k k' g g' (bs bs' : list (list (measurement F))) c os c' os' :
  built s gs k -> built (with_orientation s enu calc life) gs k' ->
  garbage_alike (s_baro s) g g' -> Forall2 (Forall2 (alike (s_baro s))) bs bs' ->
  navigate_all e k (client0 g (cf_set k)) bs = Ok (c, os) -> navigate_all e k' (client0 g' (cf_set k')) bs' = Ok (c', os') ->
  Forall2 (Forall2 same_but_orientation) os os' /\ c_states c = c_states c'.
Proof.
  intros B B' G A H H'. destruct (built_reoriented B B') as [-> <-]. edestruct calls_alike as [D O]; [|exact A|exact H|exact H'|].
  - apply garbage_twins, G.
  - split; [exact O|apply (tw_states D)].
Qed.
Theorem C121_positions (e : env F) (k : config F) g g' (bs bs' : list (list (measurement F))) c os c' os' :
  garbage_alike (s_baro (cf_set k)) g g' -> Forall2 (Forall2 (alike (s_baro (cf_set k)))) bs bs' ->
  navigate_all e k (client0 g (cf_set k)) bs = Ok (c, os) -> navigate_all e k (client0 g' (cf_set k)) bs' = Ok (c', os') ->
  Forall2 (Forall2 same_but_orientation) os os' /\ c_states c = c_states c'.
Proof.
  intros G A H H'. assert (E : reoriented k (s_enu (cf_set k)) (s_calcaz (cf_set k)) (s_azlife (cf_set k)) = k).
  { destruct k as [s ? ? ? ?]. destruct s. reflexivity. }
  edestruct calls_alike as [D O]; [|exact A|exact H|rewrite E; exact H'|].
  - change (client0 g' (cf_set k)) with (client0 g' (with_orientation (cf_set k) (s_enu (cf_set k)) (s_calcaz (cf_set k)) (s_azlife (cf_set k)))).
    apply garbage_twins, G.
  - split; [exact O|apply (tw_states D)].
Qed.
End Twins.
Print Assumptions C121_positions.
Print Assumptions C121_settings.

(** a compass that turns, a gyroscope and an unused barometer: other values in
    the second history, the same positions, another orientation *)
Definition ex_turn (x : Z) : list (list (measurement SF)) :=
  [ex_b1; [ex_msn MAGNETOMETER x 20 40 3100; ex_msn GYROSCOPE x x x 3200; ex_msn BAROMETER x 0 0 3300;
    ex_msn ACCELEROMETER 0 0 9 3400; ex_msn ORIENTATION x x x 3500; ex_mr "a" (-60) 3600]].
Definition ex_seen (bs : list (list (measurement SF))) :=
  '(_, os) <- ex_run (ex_zones false) ex_gls (ex_garbage 0) bs ;; Ok (map (map (fun o => (o_status o, o_prov o))) os).
Definition ex_orient (bs : list (list (measurement SF))) :=
  '(_, os) <- ex_run (ex_zones false) ex_gls (ex_garbage 0) bs ;; Ok (map (map (@o_orient SF)) os).
Example C121_example : s_baro (ex_zones false) = false /\ Forall2 (Forall2 (alike false)) (ex_turn 1) (ex_turn (-7)) /\
  garbage_alike false (ex_garbage 0) (ex_garbage 0) /\
  ex_seen (ex_turn 1) = Ok [[(NO_LEVEL, None); (NO_LEVEL, None); (OK, Some INDOOR)]; repeat (OK, Some INDOOR) 6] /\
  ex_seen (ex_turn (-7)) = ex_seen (ex_turn 1) /\ ex_orient (ex_turn 1) <> ex_orient (ex_turn (-7)).
Proof.
  split; [reflexivity|]. split; [|split; [repeat split; left; reflexivity|split; [vm_compute; reflexivity|split; [vm_compute; reflexivity|intros E; vm_compute in E; discriminate E]]]].
  unfold ex_turn, ex_b1. repeat (apply Forall2_cons || apply Forall2_nil); (split; [reflexivity|]); cbn;
    first [reflexivity | split; [reflexivity|]; first [left; reflexivity | right; exact I | right; reflexivity]].
Qed.
(** the same for a client that is told to compute the azimuth, in ENU *)
Example C121_example_settings : let s := with_orientation (ex_zones false) true true (fofZ 1) in
  (exists k, built s ex_gls k) /\
  ('(_, os) <- ex_run s ex_gls (ex_garbage 0) (ex_turn (-7)) ;; Ok (map (map (fun o => (o_status o, o_prov o))) os)) = ex_seen (ex_turn 1) /\
  ('(_, os) <- ex_run s ex_gls (ex_garbage 0) (ex_turn 1) ;; Ok (map (map (@o_orient SF)) os)) <> ex_orient (ex_turn 1).
Proof.
  cbv zeta. split; [|split; [vm_compute; reflexivity|intros E; vm_compute in E; discriminate E]].
  destruct (add_geo_levels col0 ex_gls) as [col| | |] eqn:C; [|exfalso; vm_compute in C; discriminate C..].
  destruct (mk_config (with_orientation (ex_zones false) true true (fofZ 1)) col) as [k| | |] eqn:K;
    [exists k, col; auto|exfalso; assert (X : (c <- add_geo_levels col0 ex_gls ;; Ok (match mk_config (with_orientation (ex_zones false) true true (fofZ 1)) c with Ok _ => true | _ => false end)) = Ok true)
      by (vm_compute; reflexivity); rewrite C in X; cbn [bind] in X; rewrite K in X; discriminate X..].
Qed.
