(** Radio measurement buffer and measurement preprocessor.
    Models src/measurements/measurement_preprocessor.{h,cpp}. *)
From Verif Require Export LevelModel.
Set Implicit Arguments.

Definition is_rtt (t : rtype) : bool := match t with WIFI_RTT => true | _ => false end.

(** RadioMeasurementBuffer: constants (h:35-39) and state (h:41-45) *)
Record bufcfg := mkBufcfg {
  bc_keep : Z;        (* mRadioKeepPeriodMs *)
  bc_shift : Z;       (* mSignalWindowShiftMs *)
  bc_stop : Z;        (* mStopDetectionTimeMs *)
  bc_usestops : bool  (* mUseStops *)
}.
Record buffer (F : Type) := mkBuf {
  b_ms : list (stamped (radio F));  (* mMeasurements *)
  b_last : Z;                       (* mLastExtractionTs *)
  b_cur : Z;                        (* mCurrentTs *)
  b_step : Z                        (* mLastStepTs *)
}.

(** MeasurementsPreprocessor state (h:86-92); mLastSignalTs, mSensor and mNmea
    are not initialised by the constructor *)
Record preproc (F : Type) := mkPre {
  pp_buf : buffer F; pp_cur : Z; pp_signal : Z;
  pp_sensor : stamped (sensor F); pp_nmea : stamped nmea }.

Section Preproc.
Context {F : Type} {NF : Num F} {SO : Sorter}.

(** cpp:30-38 and 40-48 checkUseWifi / checkUseBle *)
Definition use_wifi (s : settings F) : bool :=
  match s_signals s with SWIFI | SBOTH => true | SBLE => false end.
Definition use_ble (s : settings F) : bool :=
  match s_signals s with SBLE | SBOTH => true | SWIFI => false end.

(** (long long)(1000 * seconds); an out-of-range conversion is undefined *)
Definition to_ms (x : F) : res Z :=
  match ftoZ (fofZ 1000 *! x) with Some z => Ok z | None => UB end.

(** cpp:55-71 createRadioMeasurementBuffer (rssiBias is 0, line 68) *)
Definition buffer_config (s : settings F) : res bufcfg :=
  avg <- to_ms (s_avg s) ;;
  sh <- to_ms (s_shift s) ;;
  st <- to_ms (s_stopdetect s) ;;
  let sh := if (sh =? 0)%Z || (avg <? sh)%Z then avg else sh in
  Ok (mkBufcfg (avg - sh) sh st (s_stops s)).

(** cpp:221-235 *)
Definition buffer0 : buffer F := mkBuf [] 0 0 0.

(** cpp:237-250 addMeasurement, with mRssiBias = 0 *)
Definition buffer_add (b : buffer F) (m : stamped (radio F)) : buffer F :=
  let last := if (b_cur b =? 0)%Z then st_ts m else b_last b in
  let d := st_data m in
  let m' := mkSt (radio_set d (r_rssi d +! f0) (r_dist d)) (st_ts m) in
  mkBuf (b_ms b ++ [m']) last (st_ts m) (b_step b).

(** comparator of cpp:268-272 and 277-281 *)
Definition id_lt (a b : stamped (radio F)) : bool :=
  String.ltb (r_id (st_data a)) (r_id (st_data b)).
(** comparator of cpp:321-325 *)
Definition ts_lt (a b : stamped (radio F)) : bool := (st_ts a <? st_ts b)%Z.

(** cpp:274-305, the while loop: [sameIdFirst, sameIdLast) where sameIdLast is
    the upper bound of *sameIdFirst.  On a sorted range the binary search of
    std::upper_bound finds the first element greater than *sameIdFirst. *)
Fixpoint runs_from (x : stamped (radio F)) (acc : list (stamped (radio F)))
    (l : list (stamped (radio F))) : list (stamped (radio F) * list (stamped (radio F))) :=
  match l with
  | [] => [(x, rev acc)]
  | e :: t => if id_lt x e then (x, rev acc) :: runs_from e [e] t
              else runs_from x (e :: acc) t
  end.
Definition runs (l : list (stamped (radio F))) : list (stamped (radio F) * list (stamped (radio F))) :=
  match l with [] => [] | x :: t => runs_from x [x] t end.

(** cpp:283-303 averages over one run *)
Definition average_run (g : stamped (radio F) * list (stamped (radio F))) : radio F :=
  let n := fofnat (List.length (snd g)) in
  let rssi := fsum (fun m => r_rssi (st_data m)) (snd g) /! n in
  let dist := fsum (fun m => r_dist (st_data m)) (snd g) /! n in
  radio_set (st_data (fst g)) rssi dist.

(** std::find_if + erase of cpp:327-334 *)
Fixpoint drop_old (from : Z) (l : list (stamped (radio F))) : list (stamped (radio F)) :=
  match l with
  | [] => []
  | m :: t => if (from <=? st_ts m)%Z then m :: t else drop_old from t
  end.

(** cpp:252-338 extractMeasurements *)
Definition buffer_extract (c : bufcfg) (b : buffer F) (lastStep : Z) : buffer F * list (radio F) :=
  let step := if (0 <? lastStep)%Z then lastStep else b_step b in
  if (b_cur b - b_last b <? bc_shift c)%Z
  then (mkBuf (b_ms b) (b_last b) (b_cur b) step, [])
  else
    let sorted := ssort id_lt (b_ms b) in
    let out := map average_run (runs sorted) in
    if (bc_usestops c && (0 <? step)%Z) && (bc_stop c <? b_cur b - step)%Z
    then (mkBuf sorted (b_cur b) (b_cur b) step, out)
    else if (bc_keep c =? 0)%Z
    then (mkBuf [] (b_cur b) (b_cur b) step, out)
    else
      let from := (b_cur b - bc_keep c)%Z in
      (mkBuf (drop_old from (ssort ts_lt sorted)) (b_cur b) (b_cur b) step, out).

(** cpp:189-196 isSignalTypeSupported *)
Definition signal_supported (s : settings F) (t : rtype) : bool :=
  match t with
  | WIFI => use_wifi s
  | BEACON => use_ble s
  | BLUETOOTH => use_ble s
  | EDDYSTONE => use_ble s
  | WIFI_RTT => use_wifi s
  end.

(** cpp:198-201 isRssiValid *)
Definition rssi_valid (s : settings F) (r : F) : bool := (r <! f0) && (s_cutoff s <! r).

(** cpp:203-219 isTransmitterSupported *)
Definition tx_supported (s : settings F) (c : collector F) (tx : string) : res bool :=
  match find_level_by_tx c tx with
  | None => Ok false
  | Some lid =>
      if negb (has_level c lid) then Ok false
      else
        l <- get_level c lid ;;
        if negb (contains_tx l tx) then Ok false
        else
          t <- get_tx l tx ;;
          Ok (if s_tracking s then is_locator (t_type t) else negb (is_locator (t_type t)))
  end.

(** cpp:170-187 getValidSignalEntry *)
Definition valid_signal (s : settings F) (c : collector F) (m : radio F) : res bool :=
  v <- (if s_unknown s then Ok true
        else match find_level_by_tx c (r_id m) with
             | Some _ => tx_supported s c (r_id m)
             | None => Ok false
             end) ;;
  let is_rssi_mode := match s_mtype s with RSSI => true | _ => false end in
  let v := if negb is_rssi_mode && negb (is_rtt (r_type m)) then false else v in
  let v := if is_rssi_mode && negb (rssi_valid s (r_rssi m)) then false else v in
  Ok (v && signal_supported s (r_type m)).

(** cpp:92-122 updateMeasurements and the three visitor operators *)
Definition update_measurements (s : settings F) (c : collector F) (p : preproc F)
    (m : measurement F) : res (preproc F) :=
  let ts := st_ts m in
  match st_data m with
  | MRadio r =>
      v <- valid_signal s c r ;;
      if v then Ok (mkPre (buffer_add (pp_buf p) (mkSt r ts)) ts ts (pp_sensor p) (pp_nmea p))
      else Ok (mkPre (pp_buf p) ts (pp_signal p) (pp_sensor p) (pp_nmea p))
  | MSensor d => Ok (mkPre (pp_buf p) ts (pp_signal p) (mkSt d ts) (pp_nmea p))
  | MNmea d => Ok (mkPre (pp_buf p) ts (pp_signal p) (pp_sensor p) (mkSt d ts))
  end.

(** comparator of cpp:130-133 *)
Definition rssi_lt (a b : radio F) : bool := r_rssi a <! r_rssi b.

(** cpp:127-137: sort of the reversed range, then truncation *)
Definition closest_aps (s : settings F) (ms : list (radio F)) : res (list (radio F)) :=
  if s_closest s then
    asc <- sort_res rssi_lt (rev ms) ;;
    let d := rev asc in
    Ok (if Nat.ltb (s_nclosest s) (List.length d) then firstn (s_nclosest s) d else d)
  else Ok ms.

(** cpp:139-155 distance of one measurement *)
Definition set_distance (s : settings F) (c : collector F) (m : radio F) : res (radio F) :=
  if negb (is_rtt (r_type m)) then
    match find_level_by_tx c (r_id m) with
    | Some lid =>
        l <- get_level c lid ;;
        t <- get_tx l (r_id m) ;;
        Ok (radio_set m (r_rssi m) (fexp ((pl_A (t_pl t) -! r_rssi m) /! pl_B (t_pl t))))
    | None => Ok m
    end
  else Ok (radio_set m (r_rssi m) (r_dist m -! s_rttoff s)).

(** cpp:124-158 extractRadioMeasurements *)
Definition extract_radio (s : settings F) (bc : bufcfg) (c : collector F) (p : preproc F)
    (lastStep : Z) : res (preproc F * list (radio F)) :=
  let '(b, out) := buffer_extract bc (pp_buf p) lastStep in
  sel <- closest_aps s out ;;
  out <- mapM (set_distance s c) sel ;;
  Ok (mkPre b (pp_cur p) (pp_signal p) (pp_sensor p) (pp_nmea p), out).
End Preproc.
