(** JSON values as nlohmann::json holds them after parsing, with the accesses
    the tools make (tools/verification/helpers.cpp), and the reading of a
    settings file.  The text and its parsing are not modelled. *)
From Coq Require Import DecimalString.
From Verif Require Export Tools.
Set Implicit Arguments.
Local Open Scope string_scope.
Local Open Scope list_scope.

(** An integer literal is stored as int64 or uint64: [JInt z] has
    -2^63 <= z < 2^64.  An object is a std::map: its list has increasing keys. *)
Inductive json (F : Type) :=
| JNull : json F
| JBool : bool -> json F
| JInt : Z -> json F
| JFlt : F -> json F
| JStr : string -> json F
| JArr : list (json F) -> json F
| JObj : list (string * json F) -> json F.
Arguments JNull {F}. Arguments JBool {F}. Arguments JInt {F}. Arguments JFlt {F}. Arguments JStr {F}.
Arguments JArr {F}. Arguments JObj {F}.

Section Json.
Context {F : Type} {NF : Num F}.

(** j.at(key): throws when j is not an object or has no such key *)
Definition jat (k : string) (j : json F) : res (json F) :=
  match j with JObj m => at_or_throw (alookup k m) | _ => Throw end.

(** j.count(key) != 0; 0 when j is not an object *)
Definition jhas (k : string) (j : json F) : bool :=
  match j with JObj m => amem k m | _ => false end.

(** range for: the values of an object; null is empty; any other value is
    iterated as itself *)
Definition jelems (j : json F) : list (json F) :=
  match j with JNull => [] | JArr l => l | JObj m => map snd m | x => [x] end.

(** the keys of j.items(): the decimal positions for an array, one empty key
    for a value that is not structured *)
Definition jkeys (j : json F) : list string :=
  match j with
  | JNull => []
  | JArr l => map (fun i => NilEmpty.string_of_uint (Nat.to_uint i)) (seq 0 (List.length l))
  | JObj m => map fst m
  | _ => [""]
  end.

(** j[0] on a const value: no bounds check; type_error unless an array *)
Definition jidx0_const (j : json F) : res (json F) :=
  match j with JArr (x :: _) => Ok x | JArr [] => UB | _ => Throw end.
(** j[0] on a non-const value: null becomes an array, a short array is
    extended with null *)
Definition jidx0 (j : json F) : res (json F) :=
  match j with JArr (x :: _) => Ok x | JArr [] | JNull => Ok JNull | _ => Throw end.

(** get_to for the types used.  bool: booleans only *)
Definition get_bool (j : json F) : res bool := match j with JBool b => Ok b | _ => Throw end.
(** double: numbers only *)
Definition get_dbl (j : json F) : res F :=
  match j with JInt z => Ok (fofZ z) | JFlt f => Ok f | _ => Throw end.
Definition z_of_bool (b : bool) : Z := if b then 1 else 0.
(** unsigned int and int: numbers and booleans, converted by static_cast; the
    conversion of a double that is out of range is undefined *)
Definition get_u32 (j : json F) : res Z :=
  match j with
  | JInt z => Ok (z mod 2 ^ 32)%Z
  | JFlt f => match ftoZ f with
              | Some z => if ((0 <=? z) && (z <? 2 ^ 32))%Z then Ok z else UB
              | None => UB end
  | JBool b => Ok (z_of_bool b)
  | _ => Throw
  end.
(** wrap-around to n bits, two's complement *)
Definition wrap_signed (n : Z) (z : Z) : Z := ((z + 2 ^ (n - 1)) mod 2 ^ n - 2 ^ (n - 1))%Z.
Definition get_i32 (j : json F) : res Z :=
  match j with
  | JInt z => Ok (wrap_signed 32 z)
  | JFlt f => match ftoZ f with
              | Some z => if ((- 2 ^ 31 <=? z) && (z <? 2 ^ 31))%Z then Ok z else UB
              | None => UB end
  | JBool b => Ok (z_of_bool b)
  | _ => Throw
  end.
(** long long, a type different from int64_t (long) on 64-bit Linux: as int *)
Definition get_i64 (j : json F) : res Z :=
  match j with
  | JInt z => Ok (wrap_signed 64 z)
  | JFlt f => match ftoZ f with Some z => Ok z | None => UB end
  | JBool b => Ok (z_of_bool b)
  | _ => Throw
  end.
Definition get_str (j : json F) : res string := match j with JStr s => Ok s | _ => Throw end.

(** NLOHMANN_JSON_SERIALIZE_ENUM (helpers.cpp:46-64): the entry whose value is
    equal, the first entry when there is none *)
Definition get_enum {E : Type} (d : E) (tbl : list (string * E)) (j : json F) : E :=
  match j with
  | JStr s => match alookup s tbl with Some e => e | None => d end
  | _ => d
  end.
Definition algo_tbl : list (string * algo) :=
  [("PF_PDR", PF_PDR); ("PF_NOPDR", PF_NOPDR); ("ZONES", ZONES); ("GRAPH", GRAPH); ("KNN", KNN)].
Definition mtype_tbl : list (string * mtype) :=
  [("rssi", RSSI); ("distance_v1", DISTANCE_V1); ("distance_v2", DISTANCE_V2)].
Definition sigs_tbl : list (string * sigs) := [("ble", SBLE); ("wifi", SWIFI); ("both", SBOTH)].

(** The struct CommonSettings as a store from member names to the values
    assigned (the last assignment first); the initialisers of
    navigation_settings.h:19-105 are in [settings_of]. *)
Inductive cval := VAlgo (a : algo) | VMtype (m : mtype) | VSigs (s : sigs) | VBool (b : bool)
  | VDbl (f : F) | VU32 (z : Z) | VI64 (z : Z).
Definition store := list (string * cval).

(** the declared types of the members *)
Inductive ctype := TAlgo | TMtype | TSigs | TBool | TDbl | TU32 | TI64.
Definition get_as (t : ctype) (j : json F) : res cval :=
  match t with
  | TAlgo => Ok (VAlgo (get_enum PF_PDR algo_tbl j))
  | TMtype => Ok (VMtype (get_enum RSSI mtype_tbl j))
  | TSigs => Ok (VSigs (get_enum SBLE sigs_tbl j))
  | TBool => b <- get_bool j ;; Ok (VBool b)
  | TDbl => x <- get_dbl j ;; Ok (VDbl x)
  | TU32 => z <- get_u32 j ;; Ok (VU32 z)
  | TI64 => z <- get_i64 j ;; Ok (VI64 z)
  end.

(** helpers.cpp:122-277: the branches "else if (key == K) j.at(key).get_to(M)"
    in order, with the type of the member M *)
Definition common_keys : list (string * (string * ctype)) := [
  ("Use_algorithm", ("useAlgorithm", TAlgo)); ("Correction_noise", ("lklCorrectionNoise", TDbl));
  ("Use_enu_azimuth", ("useEnuAzimuth", TBool)); ("Differention_mode", ("useDifferentionMode", TBool));
  ("Use_beacon_power", ("useTxPower", TBool)); ("Use_radiomap", ("useRadiomap", TBool));
  ("Use_stops", ("useStops", TBool)); ("Use_tracking", ("useTracking", TBool));
  ("Stop_detection_time", ("stopDetectionTime", TDbl)); ("Min_deviation_m", ("minDeviationM", TDbl));
  ("Average_speed", ("averageMovSpeed", TDbl)); ("Measurement_type", ("measurementType", TMtype));
  ("Use_best_ref_point_level", ("useBestRefPointLevel", TBool)); ("Use_barometer", ("useBarometer", TBool));
  ("Use_unknown_beacons", ("useUnknownTransmitters", TBool)); ("Cutoff_rss", ("sigCutOffRss", TDbl));
  ("Use_closest_aps", ("useClosestAps", TBool)); ("N_closest_aps", ("numClosestAps", TU32));
  ("Sig_averaging_time", ("sigAveragingTime", TDbl)); ("Sig_window_shift", ("sigWindowShift", TDbl));
  ("Use_Signals", ("signalsToUse", TSigs));
  ("N_particles", ("numParticles", TU32)); ("Min_msr_num_for_mutation", ("minMsrNumForMutation", TU32));
  ("Resampling_threshold_num", ("resamplingThreshold", TDbl)); ("Min_num_of_particles", ("minNumParticlesAlive", TU32));
  ("Gyro_noise_degree", ("gyroNoiseDegree", TDbl));
  ("Step_noise_deviation_meters", ("stepNoiseDeviationMeters", TDbl));
  ("Use_projection_to_white_area", ("useProjectionToWhiteArea", TBool));
  ("N_particles_around_closest_AP", ("numParticlesAroundClosestAp", TU32));
  ("N_particles_to_mutate", ("numParticlesToMutate", TU32));
  ("Num_sampling_attempts", ("numSamplingAttempts", TU32));
  ("Num_initialization_attempts", ("numInitializationAttempts", TU32));
  ("Use_uniform_sampling", ("useUniformSampling", TBool));
  ("K", ("kNeighbors", TU32)); ("Use_triangles", ("useTriangles", TBool)); ("Use_diff_mode", ("useDiffMode", TBool));
  ("Min_num_of_measurements_for_position_calculation", ("minNumOfMeasurementsForPositionCalculation", TU32));
  ("Smoothing", ("smoothing", TDbl)); ("Dead_reckon_time", ("deadReckoningTime", TDbl));
  ("Stop_update_time", ("stopUpdateTime", TDbl)); ("Graph_prog_distance", ("graphProjDist", TDbl));
  ("Stopped_distance_threshold_m", ("useStopsDistanceThresholdM", TDbl));
  ("Use_smoothing", ("useSmoothing", TBool)); ("Use_graph_projection", ("useGraphProjection", TBool));
  ("Use_accuracy_for_smoothing", ("useAccuracyForSmoothing", TBool));
  ("Use_speed_constraint", ("useSpeedConstraint", TBool)); ("Use_barriers", ("useBarriers", TBool));
  ("Use_time_smoothing", ("useTimeSmoothing", TBool)); ("Use_ab_filter", ("useAbFilter", TBool));
  ("Use_gps", ("useGps", TBool)); ("Use_instant_gps_position", ("useInstantGpsPosition", TBool));
  ("Prefer_indoor_solution", ("preferIndoorSolution", TBool)); ("Fuse_gps", ("fuseGps", TBool));
  ("Use_gps_outside_map", ("useGpsOutsideMap", TBool)); ("Use_gps_sigma_filter", ("useGpsSigmaFilter", TBool));
  ("Sigma_filter_window", ("sigmaFilterWindow", TU32)); ("Sigma_filter_delta", ("sigmaFilterDelta", TDbl));
  ("Min_num_sats", ("minNumSats", TU32));
  ("Prior_deviation", ("priorDeviation", TDbl)); ("Gps_deviation", ("minGpsDeviation", TDbl));
  ("Maximum_to_accept_gps_measurement", ("maxGpsDeviation", TDbl));
  ("Fuse_gps_border_m", ("fuseGpsBorderM", TDbl));
  ("Position_old_for_fusing_sec", ("positionIsTooOldSec", TDbl));
  ("Gps_valid_time_window_sec", ("gpsValidTimeWindowSec", TDbl));
  ("Use_calculated_azimuth", ("useCalculatedAzimuth", TBool));
  ("Device_azimuth_lifetime_seconds", ("deviceAzimuthLifetimeSeconds", TDbl));
  ("Step_multiplier", ("stepMultiplier", TDbl));
  ("Has_accelerometer", ("hasAccelerometer", TBool)); ("Has_gyroscope", ("hasGyroscope", TBool));
  ("No_signal_time_threshold", ("noSignalTimeThreshold", TI64));
  ("No_action_time_threshold", ("noActionTimeThreshold", TI64));
  ("WiFi_RTT_Offset", ("wiFiRttOffset", TDbl)) ].

(** helpers.cpp:298-306 *)
Definition level_keys : list (string * (string * ctype)) :=
  [("A", ("normalModeA", TDbl)); ("B", ("normalModeB", TDbl))].

(** helpers.cpp:118-286, 296-312: the loop inside its try block.  The first
    exception ends it; what was assigned stays. *)
Fixpoint read_keys (tbl : list (string * (string * ctype))) (j : json F) (keys : list string) (s : store) :
    res store :=
  match keys with
  | [] => Ok s
  | k :: rest =>
      match alookup k tbl with
      | None => read_keys tbl j rest s
      | Some (mem, t) =>
          match (v <- jat k j ;; get_as t v) with
          | Ok x => read_keys tbl j rest ((mem, x) :: s)
          | Throw => Ok s
          | UB => UB
          | OutOfFuel => OutOfFuel
          end
      end
  end.

(** helpers.cpp:111-117, 289-295 *)
Definition read_struct (tbl : list (string * (string * ctype))) (j : json F) : res store :=
  read_keys tbl j (jkeys j) [].

Definition sb (s : store) (m : string) (d : bool) : bool :=
  match alookup m s with Some (VBool b) => b | _ => d end.
Definition sd (s : store) (m : string) (d : F) : F :=
  match alookup m s with Some (VDbl x) => x | _ => d end.
Definition su (s : store) (m : string) (d : Z) : Z :=
  match alookup m s with Some (VU32 z) => z | _ => d end.
Definition si (s : store) (m : string) (d : Z) : Z :=
  match alookup m s with Some (VI64 z) => z | _ => d end.

(** navigation_settings.h:19-105: the members the code reads, with their
    initialisers; 1/0 is the infinity of line 91 *)
Definition settings_of (s : store) (lv : list (string * (F * F))) : settings F := {|
  s_algo := match alookup "useAlgorithm" s with Some (VAlgo a) => a | _ => PF_PDR end;
  s_enu := sb s "useEnuAzimuth" false; s_txpower := sb s "useTxPower" false;
  s_radiomap := sb s "useRadiomap" false; s_stops := sb s "useStops" false; s_tracking := sb s "useTracking" false;
  s_stopdetect := sd s "stopDetectionTime" (fofZ 3); s_speed := sd s "averageMovSpeed" f1;
  s_mtype := match alookup "measurementType" s with Some (VMtype a) => a | _ => RSSI end;
  s_bestrp := sb s "useBestRefPointLevel" false; s_baro := sb s "useBarometer" false;
  s_unknown := sb s "useUnknownTransmitters" false; s_cutoff := sd s "sigCutOffRss" (fofZ (-100));
  s_closest := sb s "useClosestAps" false; s_nclosest := Z.to_nat (su s "numClosestAps" 1);
  s_avg := sd s "sigAveragingTime" f1; s_shift := sd s "sigWindowShift" f0;
  s_signals := match alookup "signalsToUse" s with Some (VSigs a) => a | _ => SBLE end;
  s_kneigh := Z.to_nat (su s "kNeighbors" 8); s_triangles := sb s "useTriangles" true;
  s_diff := sb s "useDiffMode" true;
  s_minmsr := Z.to_nat (su s "minNumOfMeasurementsForPositionCalculation" 4);
  s_smoothing := sd s "smoothing" (lit 1 2); s_deadreck := sd s "deadReckoningTime" (fofZ 5);
  s_stopupdate := sd s "stopUpdateTime" (fofZ 4); s_graphdist := sd s "graphProjDist" (fofZ 5);
  s_stopsdist := sd s "useStopsDistanceThresholdM" (fofZ 10);
  s_usesmooth := sb s "useSmoothing" true; s_graphproj := sb s "useGraphProjection" false;
  s_accsmooth := sb s "useAccuracyForSmoothing" false; s_speedcon := sb s "useSpeedConstraint" true;
  s_barriers := sb s "useBarriers" false; s_timesmooth := sb s "useTimeSmoothing" false;
  s_abfilter := sb s "useAbFilter" true; s_altitude := sb s "useAltitude" false; s_gps := sb s "useGps" false;
  s_instgps := sb s "useInstantGpsPosition" false; s_prefindoor := sb s "preferIndoorSolution" false;
  s_fusegps := sb s "fuseGps" false; s_gpsoutside := sb s "useGpsOutsideMap" false;
  s_sigma := sb s "useGpsSigmaFilter" false; s_sigmawin := Z.to_nat (su s "sigmaFilterWindow" 1);
  s_sigmadelta := sd s "sigmaFilterDelta" f0; s_minsats := su s "minNumSats" 20;
  s_priordev := sd s "priorDeviation" (fofZ 50); s_mingpsdev := sd s "minGpsDeviation" (fofZ 5);
  s_maxgpsdev := sd s "maxGpsDeviation" (f1 /! f0); s_fuseborder := sd s "fuseGpsBorderM" (fofZ 10);
  s_nosignal := si s "noSignalTimeThreshold" 35; s_noaction := si s "noActionTimeThreshold" 20;
  s_posold := sd s "positionIsTooOldSec" (fofZ 20); s_gpsvalid := sd s "gpsValidTimeWindowSec" f1;
  s_calcaz := sb s "useCalculatedAzimuth" false; s_azlife := sd s "deviceAzimuthLifetimeSeconds" (fofZ 10);
  s_stepmult := sd s "stepMultiplier" f1; s_rttoff := sd s "wiFiRttOffset" (lit (-3) 2);
  s_levels := lv |}.

(** .get<CommonSettings>() (helpers.cpp:720), beside the level settings [lv] *)
Definition get_common (j : json F) (lv : list (string * (F * F))) : res (settings F) :=
  st <- read_struct common_keys j ;; Ok (settings_of st lv).

(** navigation_settings.h:108-111 *)
Definition level_of (s : store) : F * F := (sd s "normalModeA" (fofZ (-82)), sd s "normalModeB" (fofZ 3)).

(** .get<LevelSettings>() (helpers.cpp:718) *)
Definition get_level (j : json F) : res (F * F) := st <- read_struct level_keys j ;; Ok (level_of st).

(** helpers.cpp:715-719, one element of level_settings; levelsSettings[id] = *)
Definition read_level (acc : res (list (string * (F * F)))) (e : json F) : res (list (string * (F * F))) :=
  m <- acc ;;
  id <- (v <- jat "level" e ;; get_str v) ;;
  js <- (v <- jat "settings" e ;; jidx0_const v) ;;
  ab <- get_level js ;;
  Ok (mset id ab m).

(** helpers.cpp:698-723 CreateSettingsFromJson on a file that can be opened *)
Definition create_settings (j : json F) : res (settings F) :=
  ls <- jat "level_settings" j ;;
  lv <- fold_left read_level (jelems ls) (Ok []) ;;
  c <- (v <- jat "common_settings" j ;; jidx0 v) ;;
  get_common c lv.
End Json.
Arguments cval F : clear implicits.
Arguments store F : clear implicits.
