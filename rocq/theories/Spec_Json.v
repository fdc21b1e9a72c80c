(** Specification of reading settings files: which values a key accepts, what
    they mean, and which setting a key sets (written from
    navigation_settings.h, independently of the reader). *)
From Verif Require Export Lib Json.
Set Implicit Arguments.
Local Open Scope string_scope.
Local Open Scope list_scope.

Inductive vtype := Boolean | Number | Count | Seconds | Name.

Section Spec.
Context {F : Type} {NF : Num F}.

(** the JSON values a key of the type accepts *)
Definition accepts (t : vtype) (v : json F) : Prop :=
  match t with
  | Boolean => exists b, v = JBool b
  | Number => (exists z, v = JInt z) \/ (exists f, v = JFlt f)
  | Count | Seconds => (exists z, v = JInt z) \/ (exists f, v = JFlt f) \/ (exists b, v = JBool b)
  | Name => True
  end.
(** ... and those whose conversion is defined *)
Definition in_range (t : vtype) (v : json F) : Prop :=
  match t with
  | Count => forall f, v = JFlt f -> exists z, ftoZ f = Some z /\ (0 <= z < 2 ^ 32)%Z
  | Seconds => forall f, v = JFlt f -> exists z, ftoZ f = Some z
  | _ => True
  end.

(** the meaning of a value *)
Inductive means_bool : json F -> bool -> Prop :=
| mb b : means_bool (JBool b) b.
Inductive means_num : json F -> F -> Prop :=
| mn_int z : means_num (JInt z) (fofZ z)
| mn_flt f : means_num (JFlt f) f.
Inductive means_int (lo n : Z) : json F -> Z -> Prop :=
| mi_int z q r : (lo <= r < lo + n)%Z -> z = (q * n + r)%Z -> means_int lo n (JInt z) r
| mi_flt f z : ftoZ f = Some z -> means_int lo n (JFlt f) z
| mi_true : means_int lo n (JBool true) 1
| mi_false : means_int lo n (JBool false) 0.
Definition means_nat (v : json F) (k : nat) : Prop := means_int 0 (2 ^ 32) v (Z.of_nat k).
Inductive means_name {E : Type} (first : E) (names : list (string * E)) : json F -> E -> Prop :=
| me_in s e : In (s, e) names -> means_name first names (JStr s) e
| me_other v : (forall s e, In (s, e) names -> v <> JStr s) -> means_name first names v first.

(** a key, the setting it sets, its default and the meaning of its value *)
Inductive row := Row (A : Type) (key : string) (proj : settings F -> A) (dflt : A) (means : json F -> A -> Prop).

Definition algo_names := [("PF_PDR", PF_PDR); ("PF_NOPDR", PF_NOPDR); ("ZONES", ZONES); ("GRAPH", GRAPH); ("KNN", KNN)].
Definition mtype_names := [("rssi", RSSI); ("distance_v1", DISTANCE_V1); ("distance_v2", DISTANCE_V2)].
Definition sigs_names := [("ble", SBLE); ("wifi", SWIFI); ("both", SBOTH)].

Definition flag key proj dflt := Row key proj dflt means_bool.
Definition num key proj dflt := Row key proj dflt means_num.
Definition count key proj dflt := Row key proj dflt means_nat.

Definition rows : list row := [
  Row "Use_algorithm" (@s_algo F) PF_PDR (means_name PF_PDR algo_names);
  Row "Measurement_type" (@s_mtype F) RSSI (means_name RSSI mtype_names);
  Row "Use_Signals" (@s_signals F) SBLE (means_name SBLE sigs_names);
  flag "Use_enu_azimuth" (@s_enu F) false; flag "Use_beacon_power" (@s_txpower F) false;
  flag "Use_radiomap" (@s_radiomap F) false; flag "Use_stops" (@s_stops F) false;
  flag "Use_tracking" (@s_tracking F) false; flag "Use_best_ref_point_level" (@s_bestrp F) false;
  flag "Use_barometer" (@s_baro F) false; flag "Use_unknown_beacons" (@s_unknown F) false;
  flag "Use_closest_aps" (@s_closest F) false; flag "Use_triangles" (@s_triangles F) true;
  flag "Use_diff_mode" (@s_diff F) true; flag "Use_smoothing" (@s_usesmooth F) true;
  flag "Use_graph_projection" (@s_graphproj F) false; flag "Use_accuracy_for_smoothing" (@s_accsmooth F) false;
  flag "Use_speed_constraint" (@s_speedcon F) true; flag "Use_barriers" (@s_barriers F) false;
  flag "Use_time_smoothing" (@s_timesmooth F) false; flag "Use_ab_filter" (@s_abfilter F) true;
  flag "Use_gps" (@s_gps F) false; flag "Use_instant_gps_position" (@s_instgps F) false;
  flag "Prefer_indoor_solution" (@s_prefindoor F) false; flag "Fuse_gps" (@s_fusegps F) false;
  flag "Use_gps_outside_map" (@s_gpsoutside F) false; flag "Use_gps_sigma_filter" (@s_sigma F) false;
  flag "Use_calculated_azimuth" (@s_calcaz F) false;
  num "Stop_detection_time" (@s_stopdetect F) (fofZ 3); num "Average_speed" (@s_speed F) (fofZ 1);
  num "Cutoff_rss" (@s_cutoff F) (fofZ (-100)); num "Sig_averaging_time" (@s_avg F) (fofZ 1);
  num "Sig_window_shift" (@s_shift F) (fofZ 0); num "Smoothing" (@s_smoothing F) (fofZ 1 /! fofZ 2);
  num "Dead_reckon_time" (@s_deadreck F) (fofZ 5); num "Stop_update_time" (@s_stopupdate F) (fofZ 4);
  num "Graph_prog_distance" (@s_graphdist F) (fofZ 5); num "Stopped_distance_threshold_m" (@s_stopsdist F) (fofZ 10);
  num "Sigma_filter_delta" (@s_sigmadelta F) (fofZ 0); num "Prior_deviation" (@s_priordev F) (fofZ 50);
  num "Gps_deviation" (@s_mingpsdev F) (fofZ 5);
  num "Maximum_to_accept_gps_measurement" (@s_maxgpsdev F) (fofZ 1 /! fofZ 0);
  num "Fuse_gps_border_m" (@s_fuseborder F) (fofZ 10); num "Position_old_for_fusing_sec" (@s_posold F) (fofZ 20);
  num "Gps_valid_time_window_sec" (@s_gpsvalid F) (fofZ 1);
  num "Device_azimuth_lifetime_seconds" (@s_azlife F) (fofZ 10); num "Step_multiplier" (@s_stepmult F) (fofZ 1);
  num "WiFi_RTT_Offset" (@s_rttoff F) (fofZ (-3) /! fofZ 2);
  count "N_closest_aps" (@s_nclosest F) 1%nat; count "K" (@s_kneigh F) 8%nat;
  count "Min_num_of_measurements_for_position_calculation" (@s_minmsr F) 4%nat;
  count "Sigma_filter_window" (@s_sigmawin F) 1%nat;
  Row "Min_num_sats" (@s_minsats F) 20%Z (means_int 0 (2 ^ 32));
  Row "No_signal_time_threshold" (@s_nosignal F) 35%Z (means_int (- 2 ^ 63) (2 ^ 64));
  Row "No_action_time_threshold" (@s_noaction F) 20%Z (means_int (- 2 ^ 63) (2 ^ 64)) ].

(** all keys read, those of members no code uses included *)
Definition key_types : list (string * vtype) := [
  ("Use_algorithm", Name); ("Correction_noise", Number); ("Use_enu_azimuth", Boolean); ("Differention_mode", Boolean);
  ("Use_beacon_power", Boolean); ("Use_radiomap", Boolean); ("Use_stops", Boolean); ("Use_tracking", Boolean);
  ("Stop_detection_time", Number); ("Min_deviation_m", Number); ("Average_speed", Number); ("Measurement_type", Name);
  ("Use_best_ref_point_level", Boolean); ("Use_barometer", Boolean); ("Use_unknown_beacons", Boolean);
  ("Cutoff_rss", Number); ("Use_closest_aps", Boolean); ("N_closest_aps", Count); ("Sig_averaging_time", Number);
  ("Sig_window_shift", Number); ("Use_Signals", Name); ("N_particles", Count); ("Min_msr_num_for_mutation", Count);
  ("Resampling_threshold_num", Number); ("Min_num_of_particles", Count); ("Gyro_noise_degree", Number);
  ("Step_noise_deviation_meters", Number); ("Use_projection_to_white_area", Boolean);
  ("N_particles_around_closest_AP", Count); ("N_particles_to_mutate", Count); ("Num_sampling_attempts", Count);
  ("Num_initialization_attempts", Count); ("Use_uniform_sampling", Boolean); ("K", Count); ("Use_triangles", Boolean);
  ("Use_diff_mode", Boolean); ("Min_num_of_measurements_for_position_calculation", Count); ("Smoothing", Number);
  ("Dead_reckon_time", Number); ("Stop_update_time", Number); ("Graph_prog_distance", Number);
  ("Stopped_distance_threshold_m", Number); ("Use_smoothing", Boolean); ("Use_graph_projection", Boolean);
  ("Use_accuracy_for_smoothing", Boolean); ("Use_speed_constraint", Boolean); ("Use_barriers", Boolean);
  ("Use_time_smoothing", Boolean); ("Use_ab_filter", Boolean); ("Use_gps", Boolean);
  ("Use_instant_gps_position", Boolean); ("Prefer_indoor_solution", Boolean); ("Fuse_gps", Boolean);
  ("Use_gps_outside_map", Boolean); ("Use_gps_sigma_filter", Boolean); ("Sigma_filter_window", Count);
  ("Sigma_filter_delta", Number); ("Min_num_sats", Count); ("Prior_deviation", Number); ("Gps_deviation", Number);
  ("Maximum_to_accept_gps_measurement", Number); ("Fuse_gps_border_m", Number);
  ("Position_old_for_fusing_sec", Number); ("Gps_valid_time_window_sec", Number); ("Use_calculated_azimuth", Boolean);
  ("Device_azimuth_lifetime_seconds", Number); ("Step_multiplier", Number); ("Has_accelerometer", Boolean);
  ("Has_gyroscope", Boolean); ("No_signal_time_threshold", Seconds); ("No_action_time_threshold", Seconds);
  ("WiFi_RTT_Offset", Number) ].

(** the names in the comments of navigation_settings.h:19-105 *)
Definition documented : list string := [
  "Use_algorithm"; "Correction_noise"; "Use_enu_azimuth"; "Differention_mode"; "Use_beacon_power";
  "Use_radiomap"; "Use_stops"; "Use_tracking"; "Stop_detection_time"; "Min_deviation_m"; "Average_speed";
  "Measurement_type"; "Use_best_ref_point_level"; "Use_barometer"; "Use_unknown_beacons"; "Cutoff_rss";
  "Use_closest_aps"; "N_closest_aps"; "Sig_averaging_time"; "Sig_window_shift"; "Use_Signals"; "N_particles";
  "Min_msr_num_for_mutation"; "Resampling_threshold_num"; "Min_num_of_particles"; "Gyro_noise_degree";
  "Step_noise_deviation_meters"; "Use_projection_to_white_area"; "N_particles_around_closest_AP";
  "N_particles_to_mutate"; "Num_sampling_attempts"; "Num_initialization_attempts"; "Use_uniform_sampling";
  "K_neighbors"; "Use_triangles"; "Use_diff_mode"; "Min_num_of_measurements_for_position_calculation";
  "Smoothing"; "Dead_reckon_time"; "Stop_update_time"; "Graph_prog_distance"; "Stopped_distance_threshold_m";
  "Use_smoothing"; "Use_graph_projection"; "Use_accuracy_for_smoothing"; "Use_speed_constraint";
  "Use_barriers"; "Use_time_smoothing"; "Use_ab_filter"; "Use_altitude"; "Use_gps";
  "Use_instant_gps_position"; "Prefer_indoor_solution"; "Fuse_gps"; "Use_gps_outside_map";
  "Use_gps_sigma_filter"; "Sigma_filter_window"; "Sigma_filter_delta"; "Min_num_sats"; "Prior_deviation";
  "Gps_deviation"; "Maximum_to_accept_gps_measurement"; "Fuse_gps_border"; "No_signal_time_threshold";
  "No_action_time_threshold"; "Position_old_for_fusing_sec"; "Gps_valid_time_window_sec";
  "Use_calculated_azimuth"; "Device_azimuth_lifetime_seconds"; "Step_multiplier"; "Has_accelerometer";
  "Has_gyroscope"; "WiFi_RTT_Offset" ].

Definition known (k : string) : Prop := exists t, In (k, t) key_types.
(** an entry that is read without error (or ignored, its key being unknown) *)
Definition readable (e : string * json F) : Prop :=
  forall t, In (fst e, t) key_types -> accepts t (snd e) /\ in_range t (snd e).
(** an entry with a known key and a value of the wrong type *)
Definition mistyped (e : string * json F) : Prop :=
  exists t, In (fst e, t) key_types /\ ~ accepts t (snd e).
(** an entry whose floating-point number does not fit the integer member *)
Definition overflows (e : string * json F) : Prop :=
  exists t, In (fst e, t) key_types /\ accepts t (snd e) /\ ~ in_range t (snd e).

(** the setting has the meaning of its entry, the default when there is none *)
Definition has_setting (m : list (string * json F)) (s : settings F) (r : row) : Prop :=
  match r with
  | Row key proj dflt means =>
      (exists v, In (key, v) m /\ means v (proj s)) \/ (~ In key (map fst m) /\ proj s = dflt)
  end.

(** level settings: A and B of one level *)
Definition level_value (m : list (string * json F)) (key : string) (dflt x : F) : Prop :=
  (exists v, In (key, v) m /\ means_num v x) \/ (~ In key (map fst m) /\ x = dflt).
Definition num_at (key : string) (m : list (string * json F)) : Prop :=
  forall v, In (key, v) m -> accepts Number v.
(** an element of level_settings: its id and the object of its settings *)
Definition level_entry (e : json F) (x : string * list (string * json F)) : Prop :=
  exists m rest, e = JObj m /\ keys_sorted m /\ In ("level", JStr (fst x)) m /\
    In ("settings", JArr (JObj (snd x) :: rest)) m /\ keys_sorted (snd x).
End Spec.
Arguments row F : clear implicits.
