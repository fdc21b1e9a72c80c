(** Vocabulary of C121: measurements that differ in what a compass or a
    gyroscope shows, and outputs that differ in the orientation. *)
From Verif Require Import Base Types Client.
Set Implicit Arguments.
Local Open Scope list_scope.

Section Spec.
Context {F : Type}.
(** kinds of sensor samples whose values may differ: not the accelerometer, not
    the receiver of satellites, and the barometer only where it is not used *)
Definition loose (baro : bool) (t : stype) : Prop :=
  match t with
  | GYROSCOPE | MAGNETOMETER | ORIENTATION => True
  | BAROMETER => baro = false
  | ACCELEROMETER | LOCATION => False
  end.
Definition sensor_alike (baro : bool) (d d' : sensor F) : Prop :=
  s_type d = s_type d' /\ (s_val d = s_val d' \/ loose baro (s_type d)).
Definition alike (baro : bool) (m m' : measurement F) : Prop :=
  st_ts m = st_ts m' /\
  match st_data m, st_data m' with
  | MSensor d, MSensor d' => sensor_alike baro d d'
  | x, y => x = y
  end.
(** equal but for the orientation *)
Definition same_but_orientation (o o' : noutput F) : Prop :=
  o_status o = o_status o' /\ o_level o = o_level o' /\ o_lat o = o_lat o' /\ o_lon o = o_lon o' /\
  o_alt o = o_alt o' /\ o_r o = o_r o' /\ o_prov o = o_prov o' /\ (o_orient o = None <-> o_orient o' = None).
(** initial memory that differs in the same way *)
Definition garbage_alike (baro : bool) (g g' : garbage F) : Prop :=
  g_signal g = g_signal g' /\ g_nmea g = g_nmea g' /\
  st_ts (g_sensor g) = st_ts (g_sensor g') /\ sensor_alike baro (st_data (g_sensor g)) (st_data (g_sensor g')).
(** other settings of the orientation: useEnuAzimuth, useCalculatedAzimuth and
    deviceAzimuthLifetimeSeconds *)
Definition with_orientation (s : settings F) (enu calc : bool) (life : F) : settings F := {|
  s_algo := s_algo s; s_enu := enu; s_txpower := s_txpower s; s_radiomap := s_radiomap s;
  s_stops := s_stops s; s_tracking := s_tracking s; s_stopdetect := s_stopdetect s; s_speed := s_speed s;
  s_mtype := s_mtype s; s_bestrp := s_bestrp s; s_baro := s_baro s; s_unknown := s_unknown s;
  s_cutoff := s_cutoff s; s_closest := s_closest s; s_nclosest := s_nclosest s; s_avg := s_avg s;
  s_shift := s_shift s; s_signals := s_signals s; s_kneigh := s_kneigh s; s_triangles := s_triangles s;
  s_diff := s_diff s; s_minmsr := s_minmsr s; s_smoothing := s_smoothing s; s_deadreck := s_deadreck s;
  s_stopupdate := s_stopupdate s; s_graphdist := s_graphdist s; s_stopsdist := s_stopsdist s;
  s_usesmooth := s_usesmooth s; s_graphproj := s_graphproj s; s_accsmooth := s_accsmooth s;
  s_speedcon := s_speedcon s; s_barriers := s_barriers s; s_timesmooth := s_timesmooth s;
  s_abfilter := s_abfilter s; s_altitude := s_altitude s; s_gps := s_gps s; s_instgps := s_instgps s;
  s_prefindoor := s_prefindoor s; s_fusegps := s_fusegps s; s_gpsoutside := s_gpsoutside s;
  s_sigma := s_sigma s; s_sigmawin := s_sigmawin s; s_sigmadelta := s_sigmadelta s; s_minsats := s_minsats s;
  s_priordev := s_priordev s; s_mingpsdev := s_mingpsdev s; s_maxgpsdev := s_maxgpsdev s;
  s_fuseborder := s_fuseborder s; s_nosignal := s_nosignal s; s_noaction := s_noaction s; s_posold := s_posold s;
  s_gpsvalid := s_gpsvalid s; s_calcaz := calc; s_azlife := life; s_stepmult := s_stepmult s;
  s_rttoff := s_rttoff s; s_levels := s_levels s |}.
End Spec.
