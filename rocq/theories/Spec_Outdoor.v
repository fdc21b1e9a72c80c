(** Vocabulary of the GNSS properties (C26-C30). *)
From Coq Require Import Reals.
From Verif Require Import Base LibR Estimators Client.
Set Implicit Arguments.
Local Open Scope R_scope.

(** C26: mean and population variance *)
Definition rmean (l : list R) : R := rsum l / INR (List.length l).
Definition rvar (l : list R) : R := rsum (map (fun x => (x - rmean l) * (x - rmean l)) l) / INR (List.length l).
Definition within (delta : R) (l : list R) (x : R) : Prop := Rabs (x - rmean l) <= 3 * sqrt (rvar l) + delta.
Definition lastn {A : Type} (n : nat) (l : list A) : list A := skipn (List.length l - n) l.
Definition rxy (p : R * R) : XY RX := mkXY (Some (fst p)) (Some (snd p)).
(** the filter fed with a sequence of points: its buffer and its answers *)
Fixpoint sigma_run {F : Type} {NF : Num F} (win : nat) (delta : F) (buf : list (XY F)) (ps : list (XY F)) :
    list (XY F) * list bool :=
  match ps with
  | [] => (buf, [])
  | p :: t =>
      let '(b, ok) := sigma_add win delta buf p in
      let '(b', oks) := sigma_run win delta b t in (b', ok :: oks)
  end.

Section Outdoor.
Context {F : Type} {NF : Num F}.

(** one call of the outdoor estimator *)
Record ocall := mkCall { ca_ts : Z; ca_sensor : stamped (sensor F); ca_nmea : stamped nmea; ca_indoor : bool }.
Fixpoint outdoor_run (s : settings F) (c : collector F) (o : outdoor F) (cs : list ocall) :
    res (outdoor F * list (position F)) :=
  match cs with
  | [] => Ok (o, [])
  | x :: t =>
      '(o, p) <- outdoor_position s c o (ca_ts x) (ca_sensor x) (ca_nmea x) (ca_indoor x) ;;
      '(o, ps) <- outdoor_run s c o t ;;
      Ok (o, p :: ps)
  end.

(** the GNSS point is on the level, or positions outside the maps are wanted *)
Definition gnss_inside (la lo : F) (l : level F) : Prop :=
  let q := gps_to_local (mkGeo la lo) (l_bind l) in
  fisnan (px q) = false /\ fisnan (py q) = false /\
  (px (bmin (l_box l)) <=! px q) = true /\ (px q <=! px (bmax (l_box l))) = true /\
  (py (bmin (l_box l)) <=! py q) = true /\ (py q <=! py (bmax (l_box l))) = true.
(** the position is the fix of this call: that of the first acceptable level *)
Definition fix_of (s : settings F) (c : collector F) (x : ocall) (p : position F) : Prop :=
  exists la lo acc before l after,
    st_data (ca_sensor x) = mkSensor LOCATION (mkV la lo acc) /\
    col_levels c = before ++ l :: after /\
    (s_gpsoutside s = true \/ gnss_inside la lo l) /\
    Forall (fun l' => s_gpsoutside s = false /\ ~ gnss_inside la lo l') before /\
    mkXY (p_x p) (p_y p) = gps_to_local (mkGeo la lo) (l_bind l) /\
    p_level p = l_id l /\ p_prov p = GNSS /\ p_ts p = ca_ts x /\ p_empty p = false /\
    p_dev p = fmax acc (s_mingpsdev s).
End Outdoor.
Arguments ocall F : clear implicits.

Section Settings.
Context {F : Type} {NF : Num F}.
Definition with_maxgps (s : settings F) (z : F) : settings F := {|
  s_algo := s_algo s; s_enu := s_enu s; s_txpower := s_txpower s; s_radiomap := s_radiomap s;
  s_stops := s_stops s; s_tracking := s_tracking s; s_stopdetect := s_stopdetect s; s_speed := s_speed s;
  s_mtype := s_mtype s; s_bestrp := s_bestrp s; s_baro := s_baro s; s_unknown := s_unknown s;
  s_cutoff := s_cutoff s; s_closest := s_closest s; s_nclosest := s_nclosest s; s_avg := s_avg s;
  s_shift := s_shift s; s_signals := s_signals s; s_kneigh := s_kneigh s; s_triangles := s_triangles s;
  s_diff := s_diff s; s_minmsr := s_minmsr s; s_smoothing := s_smoothing s; s_deadreck := s_deadreck s;
  s_stopupdate := s_stopupdate s; s_graphdist := s_graphdist s; s_stopsdist := s_stopsdist s;
  s_usesmooth := s_usesmooth s; s_graphproj := s_graphproj s; s_accsmooth := s_accsmooth s;
  s_speedcon := s_speedcon s; s_barriers := s_barriers s; s_timesmooth := s_timesmooth s;
  s_abfilter := s_abfilter s; s_altitude := s_altitude s; s_gps := s_gps s; s_instgps := s_instgps s;
  s_prefindoor := s_prefindoor s; s_fusegps := s_fusegps s; s_gpsoutside := s_gpsoutside s;
  s_sigma := s_sigma s; s_sigmawin := s_sigmawin s; s_sigmadelta := s_sigmadelta s; s_minsats := s_minsats s;
  s_priordev := s_priordev s; s_mingpsdev := s_mingpsdev s; s_maxgpsdev := z;
  s_fuseborder := s_fuseborder s; s_nosignal := s_nosignal s; s_noaction := s_noaction s; s_posold := s_posold s;
  s_gpsvalid := s_gpsvalid s; s_calcaz := s_calcaz s; s_azlife := s_azlife s; s_stepmult := s_stepmult s;
  s_rttoff := s_rttoff s; s_levels := s_levels s |}.

(** clients that agree except for what the fusion remembers of GNSS *)
Definition same_post (a b : post F) : Prop :=
  po_idev a = po_idev b /\ po_time a = po_time b /\ po_sm a = po_sm b /\ po_in a = po_in b /\
  po_last a = po_last b /\ po_extr a = po_extr b /\ po_step a = po_step b.
Definition with_gps (s : settings F) (b : bool) : settings F := {|
  s_algo := s_algo s; s_enu := s_enu s; s_txpower := s_txpower s; s_radiomap := s_radiomap s;
  s_stops := s_stops s; s_tracking := s_tracking s; s_stopdetect := s_stopdetect s; s_speed := s_speed s;
  s_mtype := s_mtype s; s_bestrp := s_bestrp s; s_baro := s_baro s; s_unknown := s_unknown s;
  s_cutoff := s_cutoff s; s_closest := s_closest s; s_nclosest := s_nclosest s; s_avg := s_avg s;
  s_shift := s_shift s; s_signals := s_signals s; s_kneigh := s_kneigh s; s_triangles := s_triangles s;
  s_diff := s_diff s; s_minmsr := s_minmsr s; s_smoothing := s_smoothing s; s_deadreck := s_deadreck s;
  s_stopupdate := s_stopupdate s; s_graphdist := s_graphdist s; s_stopsdist := s_stopsdist s;
  s_usesmooth := s_usesmooth s; s_graphproj := s_graphproj s; s_accsmooth := s_accsmooth s;
  s_speedcon := s_speedcon s; s_barriers := s_barriers s; s_timesmooth := s_timesmooth s;
  s_abfilter := s_abfilter s; s_altitude := s_altitude s; s_gps := b; s_instgps := s_instgps s;
  s_prefindoor := s_prefindoor s; s_fusegps := s_fusegps s; s_gpsoutside := s_gpsoutside s;
  s_sigma := s_sigma s; s_sigmawin := s_sigmawin s; s_sigmadelta := s_sigmadelta s; s_minsats := s_minsats s;
  s_priordev := s_priordev s; s_mingpsdev := s_mingpsdev s; s_maxgpsdev := s_maxgpsdev s;
  s_fuseborder := s_fuseborder s; s_nosignal := s_nosignal s; s_noaction := s_noaction s; s_posold := s_posold s;
  s_gpsvalid := s_gpsvalid s; s_calcaz := s_calcaz s; s_azlife := s_azlife s; s_stepmult := s_stepmult s;
  s_rttoff := s_rttoff s; s_levels := s_levels s |}.

(** measurements that differ only in GNSS content *)
Definition gnss_sensor (a : sensor F) : Prop := s_type a = LOCATION.
Definition same_but_gnss (m m' : measurement F) : Prop :=
  st_ts m = st_ts m' /\ (st_data m = st_data m' \/
   (exists a b, st_data m = MSensor a /\ st_data m' = MSensor b /\ gnss_sensor a /\ gnss_sensor b) \/
   (exists a b, st_data m = MNmea a /\ st_data m' = MNmea b)).
(** clients that differ only in what they remember of GNSS, in the position
    reported while no level is known, and in the list of states *)
Definition same_sensor (a b : stamped (sensor F)) : Prop :=
  st_ts a = st_ts b /\ (st_data a = st_data b \/ (gnss_sensor (st_data a) /\ gnss_sensor (st_data b))).
Definition same_client (c c' : client F) : Prop :=
  c_lev c = c_lev c' /\ c_knn c = c_knn c' /\ c_sf c = c_sf c' /\ c_flag c = c_flag c' /\
  c_prevhead c = c_prevhead c' /\ c_prevgyro c = c_prevgyro c' /\
  pp_buf (c_pre c) = pp_buf (c_pre c') /\ pp_cur (c_pre c) = pp_cur (c_pre c') /\
  pp_signal (c_pre c) = pp_signal (c_pre c') /\ same_sensor (pp_sensor (c_pre c)) (pp_sensor (c_pre c')) /\
  same_post (c_post c) (c_post c').

Definition not_sensor (m : measurement F) : Prop := match st_data m with MSensor _ => False | _ => True end.
Definition is_radio (m : measurement F) : Prop := match st_data m with MRadio _ => True | _ => False end.
(** the position of a LOCATION sample taken at time [ts] *)
Definition location_fix (s : settings F) (l : level F) (la lo acc : F) (ts : Z) : position F :=
  let q := gps_to_local (mkGeo la lo) (l_bind l) in
  mkPos (px q) (py q) (l_id l) (fmax acc (s_mingpsdev s)) ts false GNSS f0.
End Settings.
