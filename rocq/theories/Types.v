(** Data types of the public API and of the internal state. *)
From Verif Require Export Num Base.
Set Implicit Arguments.

(** include/navigine/navigation-core/point.h:13-81 *)
Record XY (F : Type) := mkXY { px : F; py : F }.
Record XYZ (F : Type) := mkXYZ { zx : F; zy : F; zz : F }.
Record Geo (F : Type) := mkGeo { lat : F; lon : F }.

(** vector3d.h:16-44 *)
Record vec3 (F : Type) := mkV { vx : F; vy : F; vz : F }.

(** measurement_types.h, navigation_input.h:21-26 *)
Record stamped (A : Type) := mkSt { st_data : A; st_ts : Z }.

(** navigation_input.h:28-44 *)
Inductive rtype := WIFI | BEACON | BLUETOOTH | EDDYSTONE | WIFI_RTT.
Record radio (F : Type) := mkRadio {
  r_type : rtype; r_id : string; r_rssi : F; r_power : F; r_dist : F; r_std : F }.

(** navigation_input.h:46-59 *)
Inductive stype := ACCELEROMETER | MAGNETOMETER | GYROSCOPE | BAROMETER | LOCATION | ORIENTATION.
Record sensor (F : Type) := mkSensor { s_type : stype; s_val : vec3 F }.

(** navigation_input.h:61-65 *)
Record nmea := mkNmea { n_sentence : Z; n_sats : Z }.

(** navigation_input.h:69-71 *)
Inductive mdata (F : Type) :=
| MRadio : radio F -> mdata F
| MSensor : sensor F -> mdata F
| MNmea : nmea -> mdata F.
Arguments MNmea {F}.
Definition measurement (F : Type) := stamped (mdata F).

(** navigation_output.h:12-23 *)
Inductive nstatus := OK | NAVIGATION_ERROR | NO_SOLUTION | NO_RPS | NO_LEVEL.
Inductive provider := GNSS | INDOOR | FUSED | NONE.
Definition status_eqb (a b : nstatus) : bool :=
  match a, b with
  | OK, OK | NAVIGATION_ERROR, NAVIGATION_ERROR | NO_SOLUTION, NO_SOLUTION
  | NO_RPS, NO_RPS | NO_LEVEL, NO_LEVEL => true
  | _, _ => false
  end.

(** navigation_output.h:25-36; the fields without initialiser are optional,
    [None] standing for an uninitialised field *)
Record noutput (F : Type) := mkOut {
  o_status : nstatus; o_level : string; o_lat : F; o_lon : F; o_alt : F;
  o_r : option F; o_orient : option F; o_prov : option provider }.

(** position.h:18-49 *)
Record position (F : Type) := mkPos {
  p_x : F; p_y : F; p_level : string; p_dev : F; p_ts : Z;
  p_empty : bool; p_prov : provider; p_head : F }.

(** motion_info.h:15-40 (dtSec is never used) *)
Record motion (F : Type) := mkMotion {
  mi_step : bool; mi_dangle : F; mi_dist : F; mi_count : Z; mi_head : F;
  mi_azim : F; mi_lastTs : Z; mi_azvalid : bool; mi_gyro : F }.

(** navigation_state.h: the fields set by the client (lines 41-44) *)
Record nstate (F : Type) := mkNState {
  ns_steps : Z; ns_steplen : F; ns_indoor : XY F; ns_outdoor : XY F }.

(** transmitter.h:12-47 *)
Record pathloss (F : Type) := mkPL { pl_A : F; pl_B : F; pl_pow : F }.
Inductive txtype := TWIFI | TBEACON | TBLUETOOTH | TUNKNOWN | TEDDYSTONE | TLOCATOR.
Definition is_locator (t : txtype) : bool := match t with TLOCATOR => true | _ => false end.
Record transmitter (F : Type) := mkTx {
  t_id : string; t_pt : XYZ F; t_pl : pathloss F; t_type : txtype }.
(** Transmitter<GeoPoint3D> *)
Record gtransmitter (F : Type) := mkGTx {
  gt_id : string; gt_lat : F; gt_lon : F; gt_alt : F; gt_pl : pathloss F; gt_type : txtype }.

(** reference_point.h:18-45; the fingerprint map is keyed by transmitter id *)
Record sigstat (F : Type) := mkSS { ss_type : txtype; ss_mean : F; ss_var : F; ss_n : Z }.
Record refpoint (F : Type) := mkRP {
  rp_id : string; rp_pt : XY F; rp_fp : list (string * sigstat F) }.
Record grefpoint (F : Type) := mkGRP {
  grp_id : string; grp_pt : Geo F; grp_fp : list (string * sigstat F) }.

(** radiomap.h, radiomap.cpp:12-17 *)
Record radiomap (F : Type) := mkRM {
  rm_points : list (refpoint F); rm_index : list (string * nat) }.

(** graph.h:17-89, vertices are (id, point) *)
Record graph (P : Type) := mkGraph { g_verts : list (Z * P); g_edges : list (Z * Z) }.

(** boost model::box *)
Record box (F : Type) := mkBox { bmin : XY F; bmax : XY F }.

(** level.h:28-59.  [l_allowed x y] is boost::geometry::covered_by of the
    point in the allowed area (polygon predicates are an oracle). *)
Record level (F : Type) := mkLevel {
  l_id : string; l_bind : Geo F; l_txs : list (string * transmitter F);
  l_rm : radiomap F; l_box : box F; l_allowed : F -> F -> bool; l_graph : graph (XY F) }.

(** geolevel.h:24-32.  [gl_allowed] is the covered_by predicate of the allowed
    area after conversion to local coordinates. *)
Record geolevel (F : Type) := mkGeoLevel {
  gl_id : string; gl_txs : list (gtransmitter F); gl_rps : list (grefpoint F);
  gl_box : box F; gl_allowed : F -> F -> bool; gl_graph : graph (Geo F); gl_alt : F }.

(** level_collector.h:26-39 *)
Record collector (F : Type) := mkCol {
  col_levels : list (level F); col_index : list (string * nat) }.

(** navigation_settings.h:14-117, the members the code reads *)
Inductive algo := PF_PDR | PF_NOPDR | ZONES | GRAPH | KNN.
Inductive mtype := RSSI | DISTANCE_V1 | DISTANCE_V2.
Inductive sigs := SBLE | SWIFI | SBOTH.
Record settings (F : Type) := mkSettings {
  s_algo : algo;
  s_enu : bool;                 (* useEnuAzimuth *)
  s_txpower : bool;             (* useTxPower *)
  s_radiomap : bool;            (* useRadiomap *)
  s_stops : bool;               (* useStops *)
  s_tracking : bool;            (* useTracking *)
  s_stopdetect : F;             (* stopDetectionTime *)
  s_speed : F;                  (* averageMovSpeed *)
  s_mtype : mtype;              (* measurementType *)
  s_bestrp : bool;              (* useBestRefPointLevel *)
  s_baro : bool;                (* useBarometer *)
  s_unknown : bool;             (* useUnknownTransmitters *)
  s_cutoff : F;                 (* sigCutOffRss *)
  s_closest : bool;             (* useClosestAps *)
  s_nclosest : nat;             (* numClosestAps *)
  s_avg : F;                    (* sigAveragingTime *)
  s_shift : F;                  (* sigWindowShift *)
  s_signals : sigs;             (* signalsToUse *)
  s_kneigh : nat;               (* kNeighbors *)
  s_triangles : bool;           (* useTriangles *)
  s_diff : bool;                (* useDiffMode *)
  s_minmsr : nat;               (* minNumOfMeasurementsForPositionCalculation *)
  s_smoothing : F;              (* smoothing *)
  s_deadreck : F;               (* deadReckoningTime *)
  s_stopupdate : F;             (* stopUpdateTime *)
  s_graphdist : F;              (* graphProjDist *)
  s_stopsdist : F;              (* useStopsDistanceThresholdM *)
  s_usesmooth : bool;           (* useSmoothing *)
  s_graphproj : bool;           (* useGraphProjection *)
  s_accsmooth : bool;           (* useAccuracyForSmoothing *)
  s_speedcon : bool;            (* useSpeedConstraint *)
  s_barriers : bool;            (* useBarriers *)
  s_timesmooth : bool;          (* useTimeSmoothing *)
  s_abfilter : bool;            (* useAbFilter *)
  s_altitude : bool;            (* useAltitude *)
  s_gps : bool;                 (* useGps *)
  s_instgps : bool;             (* useInstantGpsPosition *)
  s_prefindoor : bool;          (* preferIndoorSolution *)
  s_fusegps : bool;             (* fuseGps *)
  s_gpsoutside : bool;          (* useGpsOutsideMap *)
  s_sigma : bool;               (* useGpsSigmaFilter *)
  s_sigmawin : nat;             (* sigmaFilterWindow *)
  s_sigmadelta : F;             (* sigmaFilterDelta *)
  s_minsats : Z;                (* minNumSats *)
  s_priordev : F;               (* priorDeviation *)
  s_mingpsdev : F;              (* minGpsDeviation *)
  s_maxgpsdev : F;              (* maxGpsDeviation *)
  s_fuseborder : F;             (* fuseGpsBorderM *)
  s_nosignal : Z;               (* noSignalTimeThreshold, seconds *)
  s_noaction : Z;               (* noActionTimeThreshold, seconds *)
  s_posold : F;                 (* positionIsTooOldSec *)
  s_gpsvalid : F;               (* gpsValidTimeWindowSec *)
  s_calcaz : bool;              (* useCalculatedAzimuth *)
  s_azlife : F;                 (* deviceAzimuthLifetimeSeconds *)
  s_stepmult : F;               (* stepMultiplier *)
  s_rttoff : F;                 (* wiFiRttOffset *)
  s_levels : list (string * (F * F))  (* levelsSettings: id -> normalModeA, normalModeB *)
}.

Section Defaults.
Context {F : Type} {NF : Num F}.
(** position.h:20-28 *)
Definition pos0 : position F := mkPos f0 f0 "" f0 0 true NONE f0.
Definition xy0 : XY F := mkXY f0 f0.

(** record updates *)
Definition pos_set_xy (p : position F) (x y : F) : position F :=
  mkPos x y (p_level p) (p_dev p) (p_ts p) (p_empty p) (p_prov p) (p_head p).
Definition pos_set_ts (p : position F) (t : Z) : position F :=
  mkPos (p_x p) (p_y p) (p_level p) (p_dev p) t (p_empty p) (p_prov p) (p_head p).
Definition pos_set_dev (p : position F) (d : F) : position F :=
  mkPos (p_x p) (p_y p) (p_level p) d (p_ts p) (p_empty p) (p_prov p) (p_head p).
Definition radio_set (m : radio F) (rssi dist : F) : radio F :=
  mkRadio (r_type m) (r_id m) rssi (r_power m) dist (r_std m).
End Defaults.
