(** Vocabulary of the client properties (C01-C13). *)
From Verif Require Import Base Client Spec_Preproc.
From Coq Require Import Sorted.
Set Implicit Arguments.

Section Spec.
Context {F : Type} {NF : Num F} {SO : Sorter}.

(** measurements of a batch that are not older than any measurement before
    them, accepted or not *)
Fixpoint accepted_after (before ms : list (measurement F)) : list (measurement F) :=
  match ms with
  | [] => []
  | m :: t =>
      let rest := accepted_after (before ++ [m]) t in
      if forallb (fun x => (st_ts x <=? st_ts m)%Z) before then m :: rest else rest
  end.
Definition accepted (ms : list (measurement F)) : list (measurement F) := accepted_after [] ms.

(** processing a list of measurements one after the other, no filtering *)
Fixpoint process (e : env F) (k : config F) (c : client F) (ms : list (measurement F)) :
    res (client F * list (noutput F)) :=
  match ms with
  | [] => Ok (c, [])
  | m :: t =>
      '(c1, o) <- nav_step e k c m ;;
      '(c2, os) <- process e k c1 t ;;
      Ok (c2, o :: os)
  end.

(** the same client with other contents of getStates() *)
Definition with_states (c : client F) (l : list (nstate F)) : client F :=
  mkClient (c_lev c) (c_knn c) (c_pre c) (c_outd c) (c_post c) (c_sf c) l (c_pos c) (c_flag c)
    (c_prevhead c) (c_prevgyro c).

Definition time_sorted (ms : list (measurement F)) : Prop := StronglySorted Z.le (map (@st_ts _) ms).

(** states a client can be in: constructed, then any number of calls *)
Definition reachable (e : env F) (k : config F) (c : client F) : Prop :=
  exists g bs os, navigate_all e k (client0 g (cf_set k)) bs = Ok (c, os).
(** clients created by the constructor *)
Definition built (s : settings F) (gs : list (geolevel F)) (k : config F) : Prop :=
  exists c, add_geo_levels col0 gs = Ok c /\ mk_config s c = Ok k.

(** the id of a level of the collector *)
Definition known_level (c : collector F) (lid : string) : Prop := In lid (map (@l_id F) (col_levels c)).

(** C05 *)
Definition reports_position (c : collector F) (o : noutput F) : Prop :=
  known_level c (o_level o) /\
  exists r az p, o_r o = Some r /\ o_orient o = Some az /\ o_prov o = Some p.
Definition reports_nothing (o : noutput F) : Prop :=
  o_level o = ""%string /\ o_lat o = f0 /\ o_lon o = f0 /\ o_alt o = f0 /\
  o_r o = None /\ o_orient o = None /\ o_prov o = None.

(** settings with another No_action_time_threshold *)
Definition with_noaction (s : settings F) (z : Z) : settings F := {|
  s_algo := s_algo s; s_enu := s_enu s; s_txpower := s_txpower s; s_radiomap := s_radiomap s;
  s_stops := s_stops s; s_tracking := s_tracking s; s_stopdetect := s_stopdetect s; s_speed := s_speed s;
  s_mtype := s_mtype s; s_bestrp := s_bestrp s; s_baro := s_baro s; s_unknown := s_unknown s;
  s_cutoff := s_cutoff s; s_closest := s_closest s; s_nclosest := s_nclosest s; s_avg := s_avg s;
  s_shift := s_shift s; s_signals := s_signals s; s_kneigh := s_kneigh s; s_triangles := s_triangles s;
  s_diff := s_diff s; s_minmsr := s_minmsr s; s_smoothing := s_smoothing s; s_deadreck := s_deadreck s;
  s_stopupdate := s_stopupdate s; s_graphdist := s_graphdist s; s_stopsdist := s_stopsdist s;
  s_usesmooth := s_usesmooth s; s_graphproj := s_graphproj s; s_accsmooth := s_accsmooth s;
  s_speedcon := s_speedcon s; s_barriers := s_barriers s; s_timesmooth := s_timesmooth s;
  s_abfilter := s_abfilter s; s_altitude := s_altitude s; s_gps := s_gps s; s_instgps := s_instgps s;
  s_prefindoor := s_prefindoor s; s_fusegps := s_fusegps s; s_gpsoutside := s_gpsoutside s;
  s_sigma := s_sigma s; s_sigmawin := s_sigmawin s; s_sigmadelta := s_sigmadelta s; s_minsats := s_minsats s;
  s_priordev := s_priordev s; s_mingpsdev := s_mingpsdev s; s_maxgpsdev := s_maxgpsdev s;
  s_fuseborder := s_fuseborder s; s_nosignal := s_nosignal s; s_noaction := z; s_posold := s_posold s;
  s_gpsvalid := s_gpsvalid s; s_calcaz := s_calcaz s; s_azlife := s_azlife s; s_stepmult := s_stepmult s;
  s_rttoff := s_rttoff s; s_levels := s_levels s |}.

(** a radio measurement the filter rejects *)
Definition rejected (s : settings F) (c : collector F) (m : measurement F) : Prop :=
  exists r, st_data m = MRadio r /\ ~ accepted_radio s c r.
(** equal measurements, or two rejected ones of the same time *)
Definition same_but_rejected (s : settings F) (c : collector F) (m m' : measurement F) : Prop :=
  m = m' \/ (st_ts m = st_ts m' /\ rejected s c m /\ rejected s c m').

(** no accepted radio measurement *)
Definition no_radio (s : settings F) (c : collector F) (m : measurement F) : Prop :=
  match st_data m with MRadio r => ~ accepted_radio s c r | _ => True end.
Definition no_location (m : measurement F) : Prop :=
  match st_data m with MSensor d => s_type d <> LOCATION | _ => True end.
(** no valid radio signal, and none for the no-signal time *)
Definition stale (k : config F) (c : client F) (m : measurement F) : Prop :=
  no_radio (cf_set k) (cf_col k) m /\ (1000 * s_nosignal (cf_set k) <= st_ts m - pp_signal (c_pre c))%Z.
(** and neither a GNSS measurement nor a recent GNSS position *)
Definition deaf (k : config F) (c : client F) (m : measurement F) : Prop :=
  stale k c m /\ no_location m /\
  (s_gpsvalid (cf_set k) <! (fofZ (st_ts m - p_ts (ou_last (c_outd c))) /! fofZ 1000)) = true.
(** the output reports exactly this position *)
Definition same_place (col : collector F) (p : position F) (o : noutput F) : Prop :=
  o_status o = OK /\ o_level o = p_level p /\ o_r o = Some (p_dev p) /\ o_prov o = Some (p_prov p) /\
  (p_level p <> ""%string -> exists l, In l (col_levels col) /\ l_id l = p_level p /\
     mkGeo (o_lat o) (o_lon o) = local_to_gps (mkXY (p_x p) (p_y p)) (l_bind l)).
End Spec.
