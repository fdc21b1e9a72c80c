(** Sample data for the examples beside the theorems, for any number type;
    the examples themselves are mostly run on binary64 with [nf]. *)
From Verif Require Import NumFloat SortInst Client.
Set Implicit Arguments.
Local Open Scope string_scope.
Local Open Scope list_scope.

Definition nf : Num SF := num_float tr0.

Section Ex.
Context {F : Type} {NF : Num F}.
Definition ex_tx (id : string) (x y : Z) : string * transmitter F :=
  (id, mkTx id (mkXYZ (fofZ x) (fofZ y) (fofZ 0)) (mkPL (fofZ (-60)) (fofZ 2) (fofZ 1)) TBEACON).
Definition ex_fp (tx : string) (m : Z) : string * sigstat F := (tx, mkSS TBEACON (fofZ m) (fofZ 1) 5).
Definition ex_rp (id : string) (x y : Z) (fp : list (string * sigstat F)) : refpoint F :=
  mkRP id (mkXY (fofZ x) (fofZ y)) fp.
Definition ex_level (id : string) (txs : list (string * transmitter F)) (rps : list (refpoint F)) : level F :=
  mkLevel id (mkGeo (fofZ 0) (fofZ 0)) txs (mk_radiomap rps)
    (mkBox (mkXY (fofZ 0) (fofZ 0)) (mkXY (fofZ 50) (fofZ 50))) (fun _ _ => true) (mkGraph [] []).
Definition ex_L1 : level F := ex_level "L1" [ex_tx "a" 1 1; ex_tx "b" 10 1]
  [ex_rp "p1" 1 1 [ex_fp "a" (-50); ex_fp "b" (-60); ex_fp "d" (-70)];
   ex_rp "p2" 10 1 [ex_fp "a" (-60); ex_fp "b" (-50); ex_fp "d" (-70)];
   ex_rp "p3" 5 10 [ex_fp "a" (-65); ex_fp "b" (-65); ex_fp "d" (-50)]].
Definition ex_L2 : level F := ex_level "L2" [ex_tx "c" 1 1]
  [ex_rp "q1" 1 1 [ex_fp "c" (-50)]].
Definition ex_col : collector F := mkCol [ex_L1; ex_L2] [("L1", 0%nat); ("L2", 1%nat)].
Definition ex_radio (id : string) (rssi : Z) : radio F :=
  mkRadio BEACON id (fofZ rssi) (fofZ (-60)) (fofZ 1) (fofZ 0).
Definition ex_ms : list (radio F) := [ex_radio "a" (-55); ex_radio "b" (-65); ex_radio "c" (-90); ex_radio "d" (-60)].
(** navigation_settings.h defaults, with 1 km for the infinite maxGpsDeviation;
    the arguments are the fields the examples vary *)
Definition ex_settings_lv (lv : list (string * (F * F))) (un og : bool) (al : algo) (closest : bool) (minm : nat) (gps gproj smooth : bool) : settings F := {|
  s_algo := al; s_enu := false; s_txpower := false; s_radiomap := false; s_stops := false; s_tracking := false;
  s_stopdetect := fofZ 3; s_speed := f1; s_mtype := RSSI; s_bestrp := false; s_baro := false; s_unknown := un;
  s_cutoff := fofZ (-100); s_closest := closest; s_nclosest := 1%nat; s_avg := f1; s_shift := f0; s_signals := SBLE;
  s_kneigh := 8%nat; s_triangles := true; s_diff := true; s_minmsr := minm; s_smoothing := lit 1 2;
  s_deadreck := fofZ 5; s_stopupdate := fofZ 4; s_graphdist := fofZ 5; s_stopsdist := fofZ 10;
  s_usesmooth := smooth; s_graphproj := gproj; s_accsmooth := false; s_speedcon := true; s_barriers := false;
  s_timesmooth := false; s_abfilter := true; s_altitude := false; s_gps := gps; s_instgps := false;
  s_prefindoor := false; s_fusegps := false; s_gpsoutside := og; s_sigma := false; s_sigmawin := 1%nat;
  s_sigmadelta := f0; s_minsats := 20; s_priordev := fofZ 50; s_mingpsdev := fofZ 5; s_maxgpsdev := fofZ 1000;
  s_fuseborder := fofZ 10; s_nosignal := 35; s_noaction := 20; s_posold := fofZ 20; s_gpsvalid := f1;
  s_calcaz := false; s_azlife := fofZ 10; s_stepmult := f1; s_rttoff := lit (-3) 2; s_levels := lv |}.
Definition ex_settings := ex_settings_lv [] false false.
(** a client with the zone estimator, from geographic levels *)
Definition ex_zones_og (un og : bool) : settings F :=
  ex_settings_lv [("L1", (fofZ (-60), fofZ 2)); ("L2", (fofZ (-60), fofZ 2))] un og ZONES false 1%nat true false false.
Definition ex_zones (un : bool) := ex_zones_og un false.
Definition ex_gtx (id : string) (x y : Z) : gtransmitter F :=
  mkGTx id (fofZ x) (fofZ y) (fofZ 0) (mkPL (fofZ (-60)) (fofZ 2) (fofZ 1)) TBEACON.
Definition ex_gl (id : string) (txs : list (gtransmitter F)) (rps : list (grefpoint F)) : geolevel F :=
  mkGeoLevel id txs rps (mkBox (mkXY (fofZ 0) (fofZ 0)) (mkXY (fofZ 50) (fofZ 50))) (fun _ _ => true)
    (mkGraph [] []) (fofZ 0).
Definition ex_gls : list (geolevel F) :=
  [ex_gl "L1" [ex_gtx "a" 1 1; ex_gtx "b" 10 1] []; ex_gl "L2" [ex_gtx "c" 1 1] []].
Definition ex_sensor (t : stype) (x y z : Z) (ts : Z) : stamped (sensor F) :=
  mkSt (mkSensor t (mkV (fofZ x) (fofZ y) (fofZ z))) ts.
(** uninitialised members: last signal at the given time, zeros elsewhere *)
Definition ex_garbage (sig : Z) : garbage F :=
  mkGarb sig (ex_sensor ACCELEROMETER 0 0 0 0) (mkSt (mkNmea 0 0) 0%Z)
    (ex_sensor MAGNETOMETER 0 0 0 0) (ex_sensor ACCELEROMETER 0 0 0 0).
Definition ex_mr (id : string) (rssi ts : Z) : measurement F := mkSt (MRadio (ex_radio id rssi)) ts.
Definition ex_msn (t : stype) (x y z ts : Z) : measurement F := mkSt (MSensor (st_data (ex_sensor t x y z ts))) ts.
Definition ex_env : env F := mkEnv 100 (fun _ _ => (fofZ 0, fofZ 0, fofZ 0)).
(** the same settings with the sigma filter on *)
Definition ex_sigma (w : nat) (s : settings F) : settings F := {|
  s_algo := s_algo s; s_enu := s_enu s; s_txpower := s_txpower s; s_radiomap := s_radiomap s;
  s_stops := s_stops s; s_tracking := s_tracking s; s_stopdetect := s_stopdetect s; s_speed := s_speed s;
  s_mtype := s_mtype s; s_bestrp := s_bestrp s; s_baro := s_baro s; s_unknown := s_unknown s;
  s_cutoff := s_cutoff s; s_closest := s_closest s; s_nclosest := s_nclosest s; s_avg := s_avg s;
  s_shift := s_shift s; s_signals := s_signals s; s_kneigh := s_kneigh s; s_triangles := s_triangles s;
  s_diff := s_diff s; s_minmsr := s_minmsr s; s_smoothing := s_smoothing s; s_deadreck := s_deadreck s;
  s_stopupdate := s_stopupdate s; s_graphdist := s_graphdist s; s_stopsdist := s_stopsdist s;
  s_usesmooth := s_usesmooth s; s_graphproj := s_graphproj s; s_accsmooth := s_accsmooth s;
  s_speedcon := s_speedcon s; s_barriers := s_barriers s; s_timesmooth := s_timesmooth s;
  s_abfilter := s_abfilter s; s_altitude := s_altitude s; s_gps := s_gps s; s_instgps := s_instgps s;
  s_prefindoor := s_prefindoor s; s_fusegps := s_fusegps s; s_gpsoutside := s_gpsoutside s;
  s_sigma := true; s_sigmawin := w; s_sigmadelta := s_sigmadelta s; s_minsats := s_minsats s;
  s_priordev := s_priordev s; s_mingpsdev := s_mingpsdev s; s_maxgpsdev := s_maxgpsdev s;
  s_fuseborder := s_fuseborder s; s_nosignal := s_nosignal s; s_noaction := s_noaction s; s_posold := s_posold s;
  s_gpsvalid := s_gpsvalid s; s_calcaz := s_calcaz s; s_azlife := s_azlife s; s_stepmult := s_stepmult s;
  s_rttoff := s_rttoff s; s_levels := s_levels s |}.
(** the same settings with other post-processing switches *)
Record ex_opts := mkOpts { eo_stops : bool; eo_smooth : bool; eo_ab : bool; eo_acc : bool; eo_time : bool; eo_fuse : bool;
  eo_barriers : bool; eo_stopsdist : F }.
Definition ex_post (w : ex_opts) (s : settings F) : settings F := {|
  s_algo := s_algo s; s_enu := s_enu s; s_txpower := s_txpower s; s_radiomap := s_radiomap s;
  s_stops := eo_stops w; s_tracking := s_tracking s; s_stopdetect := s_stopdetect s; s_speed := s_speed s;
  s_mtype := s_mtype s; s_bestrp := s_bestrp s; s_baro := s_baro s; s_unknown := s_unknown s;
  s_cutoff := s_cutoff s; s_closest := s_closest s; s_nclosest := s_nclosest s; s_avg := s_avg s;
  s_shift := s_shift s; s_signals := s_signals s; s_kneigh := s_kneigh s; s_triangles := s_triangles s;
  s_diff := s_diff s; s_minmsr := s_minmsr s; s_smoothing := s_smoothing s; s_deadreck := s_deadreck s;
  s_stopupdate := s_stopupdate s; s_graphdist := s_graphdist s; s_stopsdist := eo_stopsdist w;
  s_usesmooth := eo_smooth w; s_graphproj := s_graphproj s; s_accsmooth := eo_acc w;
  s_speedcon := s_speedcon s; s_barriers := eo_barriers w; s_timesmooth := eo_time w;
  s_abfilter := eo_ab w; s_altitude := s_altitude s; s_gps := s_gps s; s_instgps := s_instgps s;
  s_prefindoor := s_prefindoor s; s_fusegps := eo_fuse w; s_gpsoutside := s_gpsoutside s;
  s_sigma := s_sigma s; s_sigmawin := s_sigmawin s; s_sigmadelta := s_sigmadelta s; s_minsats := s_minsats s;
  s_priordev := s_priordev s; s_mingpsdev := s_mingpsdev s; s_maxgpsdev := s_maxgpsdev s;
  s_fuseborder := s_fuseborder s; s_nosignal := s_nosignal s; s_noaction := s_noaction s; s_posold := s_posold s;
  s_gpsvalid := s_gpsvalid s; s_calcaz := s_calcaz s; s_azlife := s_azlife s; s_stepmult := s_stepmult s;
  s_rttoff := s_rttoff s; s_levels := s_levels s |}.
End Ex.
