(** The navigation client.  Models src/navigation_client_impl.{h,cpp}. *)
From Verif Require Export Estimators Sensors Postproc Trilat.
Set Implicit Arguments.

(** Things outside the code: loop bound given to the model, Eigen's solver *)
Record env (F : Type) := mkEnv {
  e_fuel : nat; e_svd : list (F * F * F) -> list F -> F * F * F }.

(** Contents of members no constructor initialises *)
Record garbage (F : Type) := mkGarb {
  g_signal : Z; g_sensor : stamped (sensor F); g_nmea : stamped nmea;
  g_magn : stamped (sensor F); g_acc : stamped (sensor F) }.

(** Constant part of a client: settings, level collector, and what the
    constructors precompute (navigation_client_impl.cpp:14-31) *)
Record config (F : Type) := mkConfig {
  cf_set : settings F; cf_col : collector F; cf_buf : bufcfg; cf_post : postconf;
  cf_kt : ktables F }.

(** navigation_client_impl.h:44-61 mutable part *)
Record client (F : Type) := mkClient {
  c_lev : levest F; c_knn : position F; c_pre : preproc F; c_outd : outdoor F;
  c_post : post F; c_sf : sfusion F; c_states : list (nstate F); c_pos : position F;
  c_flag : bool; c_prevhead : option F; c_prevgyro : option F }.

Section Client.
Context {F : Type} {NF : Num F} {SO : Sorter}.

Definition is_knn (s : settings F) : bool := match s_algo s with KNN => true | _ => false end.
(** navigation_client_impl.cpp:176-190: which level estimator is created *)
Definition use_rm_level (s : settings F) : bool := s_radiomap s || is_knn s.

(** Constructor (cpp:14-31, 192-202): KNN tables for the KNN estimator, zone
    tables otherwise; radio maps are those of the radio-map level estimator,
    which the KNN estimator recomputes identically. *)
Definition mk_config (s : settings F) (c : collector F) : res (config F) :=
  zt <- (if is_knn s then Ok [] else zone_tables s c) ;;
  tris <- (if is_knn s then triangulate c else Ok []) ;;
  bc <- buffer_config s ;;
  pc <- post_config s ;;
  Ok (mkConfig s c bc pc (mkKT (levels_rmaps c) (ref_txs c) tris zt)).

Definition client0 (g : garbage F) (s : settings F) : client F :=
  mkClient levest0 pos0 (mkPre buffer0 0 (g_signal g) (g_sensor g) (g_nmea g)) outdoor0
    (post0 s) (sf0 (g_magn g) (g_acc g)) [] pos0 false None None.

(** cpp:63 calculateLevel of the estimator in use *)
Definition detect (k : config F) (ms : list (radio F)) : res string :=
  if use_rm_level (cf_set k)
  then detect_rm (s_bestrp (cf_set k)) (kt_rmaps (cf_kt k)) (cf_col k) ms
  else detect_tx (s_txpower (cf_set k)) (cf_col k) ms.

(** cpp:82 calculatePosition of the estimator in use *)
Definition indoor (k : config F) (mpos : position F) (l : level F) (ts : Z) (ms : list (radio F)) :
    res (position F * (nstatus * position F)) :=
  if is_knn (cf_set k) then knn_position (cf_set k) (cf_kt k) mpos l ts ms
  else r <- zone_position (kt_zone (cf_kt k)) l ts ms ;; Ok (mpos, r).

(** cpp:67-77: the two timeouts drop the level (reInit is a no-op for both
    estimators) *)
Definition drop_level (s : settings F) (cur sig mot : Z) (lid : string) : string :=
  let lid := if (1000 * s_nosignal s <=? cur - sig)%Z then ""%string else lid in
  if (1000 * s_noaction s <=? cur - sig)%Z && (1000 * s_noaction s <=? cur - mot)%Z && (0 <? mot)%Z
  then ""%string else lid.

(** cpp:88-101 heading bookkeeping: new azimuth, validity, mPrevFusedPosHeading
    and mPrevGyroHeading.  Dereferencing an empty optional (line 96) is UB. *)
Definition heading_step (ph pg : option F) (f : position F) (m : motion F) :
    res (F * bool * option F * option F) :=
  let ph' := if p_empty f then ph else Some (p_head f) in
  let changed := negb (p_empty f) &&
    match ph with Some h => fneb (p_head f) h | None => false end in
  if changed then Ok (mi_azim m, false, ph', Some (mi_gyro m))
  else match pg with
       | Some g =>
           match ph with
           | Some h => Ok (fopp (h -! (mi_gyro m -! g) -! fpi2), true, ph', pg)
           | None => UB
           end
       | None => Ok (mi_azim m, mi_azvalid m, ph', pg)
       end.

(** result of the position part of one iteration *)
Record outcome := mkOc {
  oc_knn : position F; oc_post : post F; oc_pos : position F; oc_flag : bool;
  oc_ph : option F; oc_pg : option F; oc_azim : F; oc_stat : nstatus }.

(** cpp:79-118 *)
Definition locate (k : config F) (c : client F) (ts : Z) (lid : string) (ms : list (radio F))
    (outp : position F) (m : motion F) : res outcome :=
  let s := cf_set k in
  if has_level (cf_col k) lid then
    l <- get_level (cf_col k) lid ;;
    '(knn, (st, inp)) <- indoor k (c_knn c) l ts ms ;;
    let '(po, f) := fuse_positions s (c_post c) ts inp outp st in
    '(az, azv, ph, pg) <- heading_step (c_prevhead c) (c_prevgyro c) f m ;;
    '(po, p) <- processed s (cf_post k) po f ts (mi_lastTs m) l ;;
    let az := if azv then az else fopp (p_head f -! fpi2) in
    let az := if s_enu s then fopp az +! fpi2 else az in
    Ok (mkOc knn po p (negb (p_empty inp)) ph pg az st)
  else if negb (p_empty outp) then
    Ok (mkOc (c_knn c) (c_post c) outp false (c_prevhead c) (c_prevgyro c) (mi_azim m) OK)
  else
    Ok (mkOc (c_knn c) (c_post c) (c_pos c) false (c_prevhead c) (c_prevgyro c) (mi_azim m) NO_LEVEL).

(** cpp:130-171 the output record *)
Definition output (e : env F) (k : config F) (p : position F) (st : nstatus) (az : F) (ms : list (radio F)) :
    res (noutput F) :=
  if p_empty p then
    Ok (mkOut (if status_eqb st OK then NAVIGATION_ERROR else st) "" f0 f0 f0 None None None)
  else
    '(la, lo, al) <-
      (if String.eqb (p_level p) "" then Ok (f0, f0, f0)
       else
         l <- get_level (cf_col k) (p_level p) ;;
         let g := local_to_gps (mkXY (p_x p) (p_y p)) (l_bind l) in
         a <- (if s_altitude (cf_set k) then altitude (e_svd e) l ms else Ok None) ;;
         Ok (lat g, lon g, match a with Some z => z | None => f0 end)) ;;
    o <- to_mpp (e_fuel e) az ;;
    Ok (mkOut OK (p_level p) la lo al (Some (p_dev p)) (Some o) (Some (p_prov p))).

(** cpp:53-171 one accepted measurement *)
Definition nav_step (e : env F) (k : config F) (c : client F) (m : measurement F) :
    res (client F * noutput F) :=
  let s := cf_set k in
  let col := cf_col k in
  pre <- update_measurements s col (c_pre c) m ;;
  let cur := pp_cur pre in
  let sig := pp_signal pre in
  let sen := pp_sensor pre in
  let nm := pp_nmea pre in
  '(sf, mi) <- sf_step (e_fuel e) s (c_sf c) sen cur ;;
  '(pre, ms) <- extract_radio s (cf_buf k) col pre (mi_lastTs mi) ;;
  det <- detect k ms ;;
  let '(lev, lid) := level_step (s_baro s) (c_lev c) det sen in
  '(outd, outp) <- outdoor_position s col (c_outd c) cur sen nm (c_flag c) ;;
  let lid := drop_level s cur sig (mi_lastTs mi) lid in
  oc <- locate k c cur lid ms outp mi ;;
  let ns := mkNState (mi_count mi) (mi_dist mi)
              (mkXY (p_x (po_in (oc_post oc))) (p_y (po_in (oc_post oc))))
              (mkXY (p_x (po_out (oc_post oc))) (p_y (po_out (oc_post oc)))) in
  o <- output e k (oc_pos oc) (oc_stat oc) (oc_azim oc) ms ;;
  Ok (mkClient lev (oc_knn oc) pre outd (oc_post oc) sf (c_states c ++ [ns]) (oc_pos oc)
        (oc_flag oc) (oc_ph oc) (oc_pg oc), o).

(** cpp:41-172 the loop over the batch *)
Fixpoint nav_loop (e : env F) (k : config F) (c : client F) (prev : Z) (ms : list (measurement F)) :
    res (client F * list (noutput F)) :=
  match ms with
  | [] => Ok (c, [])
  | m :: t =>
      if (st_ts m <? prev)%Z then nav_loop e k c prev t
      else
        '(c, o) <- nav_step e k c m ;;
        '(c, os) <- nav_loop e k c (st_ts m) t ;;
        Ok (c, o :: os)
  end.

Definition clear_states (c : client F) : client F :=
  mkClient (c_lev c) (c_knn c) (c_pre c) (c_outd c) (c_post c) (c_sf c) [] (c_pos c) (c_flag c)
    (c_prevhead c) (c_prevgyro c).

(** cpp:33-174 navigate *)
Definition navigate (e : env F) (k : config F) (c : client F) (batch : list (measurement F)) :
    res (client F * list (noutput F)) :=
  match batch with
  | [] => Ok (c, [])
  | m :: _ => nav_loop e k (clear_states c) (st_ts m) batch
  end.

(** A history: the outputs of a sequence of navigate calls *)
Fixpoint navigate_all (e : env F) (k : config F) (c : client F) (bs : list (list (measurement F))) :
    res (client F * list (list (noutput F))) :=
  match bs with
  | [] => Ok (c, [])
  | b :: t =>
      '(c, o) <- navigate e k c b ;;
      '(c, os) <- navigate_all e k c t ;;
      Ok (c, o :: os)
  end.
End Client.
