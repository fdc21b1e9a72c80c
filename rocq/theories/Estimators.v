(** Position estimators.  Models src/position_estimator/*. *)
From Verif Require Export Triangulation LevelEst.
Set Implicit Arguments.

(** tables built by the estimator constructors *)
Record ktables (F : Type) := mkKT {
  kt_rmaps : list (string * rmap F);         (* mLevelsRadiomaps *)
  kt_refs : list (string * list string);     (* mLevelReferenceTransmittersMap *)
  kt_tris : list (string * list tri);        (* mLevelTriangles *)
  kt_zone : list (string * (F * F))          (* mLogModelParameterA / B *)
}.

(** position_estimator_outdoor.h:46-63, 81-84 *)
Record outdoor (F : Type) := mkOutd { ou_last : position F; ou_buf : list (XY F) }.

Section Est.
Context {F : Type} {NF : Num F} {SO : Sorter}.

(** position_estimator_zone.cpp:13-23 constructor: .at throws when a level has
    no settings *)
Definition zone_tables (s : settings F) (c : collector F) : res (list (string * (F * F))) :=
  fold_left (fun acc l =>
    m <- acc ;; ab <- at_or_throw (alookup (l_id l) (s_levels s)) ;; Ok (mset (l_id l) ab m))
    (col_levels c) (Ok []).

(** position_estimator_zone.cpp:26-76 calculatePosition.  mPosition is never
    assigned by this class, so line 36 returns the default position. *)
Definition zone_position (zt : list (string * (F * F))) (l : level F) (ts : Z) (ms : list (radio F)) :
    res (nstatus * position F) :=
  match ms with
  | [] => Ok (NO_SOLUTION, pos0)
  | _ =>
      match level_radio l ms with
      | [] => Ok (NO_SOLUTION, pos0)
      | m0 :: rest =>
          let n := max_elem_from (fun a b => r_rssi a <! r_rssi b) m0 rest in
          p <- (if contains_tx l (r_id n)
                then t <- get_tx l (r_id n) ;; Ok (mkXY (zx (t_pt t)) (zy (t_pt t)))
                else Ok xy0) ;;
          let '(A, B) := mget (f0, f0) (l_id l) zt in
          let precision := fsqrt (fexp ((A -! r_rssi n) /! B)) +! f1 in
          Ok (OK, mkPos (px p) (py p) (l_id l) precision ts false INDOOR f0)
      end
  end.

(** position_estimator_knn.cpp:36-100 calculatePosition; the first component
    of the result is the new mPosition *)
Definition knn_position (s : settings F) (kt : ktables F) (mpos : position F) (l : level F) (ts : Z)
    (ms : list (radio F)) : res (position F * (nstatus * position F)) :=
  match ms with
  | [] => Ok (mpos, (NO_SOLUTION, mpos))
  | _ =>
      ids <- at_or_throw (alookup (l_id l) (kt_refs kt)) ;;
      let valid := whitelisted ids ms in
      if Nat.ltb (List.length valid) (s_minmsr s) then Ok (mpos, (NO_SOLUTION, mpos))
      else
        rm <- at_or_throw (alookup (l_id l) (kt_rmaps kt)) ;;
        let w := rp_weights rm valid (s_diff s) in
        let finish p :=
          let pos := mkPos (px p) (py p) (l_id l) f1 ts false INDOOR f0 in
          Ok (pos, (OK, pos)) in
        if s_triangles s then
          match alookup (l_id l) (kt_tris kt) with
          | None => Ok (mpos, (NAVIGATION_ERROR, mpos))
          | Some [] => Ok (mpos, (NO_RPS, mpos))
          | Some tris => p <- position_in_triangle tris (l_rm l) w ;; finish p
          end
        else
          p <- k_heaviest_average (l_rm l) w (s_kneigh s) ;; finish p
  end.

(** position_estimator_outdoor.cpp:12-44 SigmaFilter::add *)
Definition sigma_add (win : nat) (delta : F) (buf : list (XY F)) (p : XY F) : list (XY F) * bool :=
  if Nat.eqb (List.length buf) win then
    let n := fofnat win in
    let mx := fsum (@px F) buf /! n in
    let my := fsum (@py F) buf /! n in
    let ax := fsum (fun d => (px d -! mx) *! (px d -! mx)) buf in
    let ay := fsum (fun d => (py d -! my) *! (py d -! my)) buf in
    let dx := fofZ 3 *! fsqrt (ax /! n) +! delta in
    let dy := fofZ 3 *! fsqrt (ay /! n) +! delta in
    let ok := (fabs (mx -! px p) <=! dx) && (fabs (my -! py p) <=! dy) in
    (tl buf ++ [p], ok)
  else (buf ++ [p], false).

Definition outdoor0 : outdoor F := mkOutd pos0 [].

(** position_estimator_outdoor.cpp:64-79 extractGpsPosition: latitude,
    longitude and deviation of a LOCATION sensor *)
Definition gps_of (s : settings F) (m : stamped (sensor F)) : option (F * F * F) :=
  match s_type (st_data m) with
  | LOCATION =>
      let v := s_val (st_data m) in
      Some (vx v, vy v, fmax (vz v) (s_mingpsdev s))
  | _ => None
  end.

(** position_estimator_outdoor.cpp:81-88 extractNumberOfSatellites *)
Definition num_sats (n : stamped nmea) : Z :=
  if (n_sentence (st_data n) =? 1)%Z && negb (n_sats (st_data n) =? 0)%Z
  then n_sats (st_data n) else 0%Z.

(** position_estimator_outdoor.cpp:116-119 acceptance of a level *)
Definition gps_on_level (s : settings F) (la lo : F) (l : level F) : bool :=
  let p := gps_to_local (mkGeo la lo) (l_bind l) in
  (negb (fisnan (px p)) && negb (fisnan (py p)) && covered_by_box (px p) (py p) (l_box l))
  || s_gpsoutside s.

(** position_estimator_outdoor.cpp:90-147 calculatePosition.  std::deque
    pop_front of an empty sigma buffer (window 0) is undefined behaviour. *)
Definition outdoor_position (s : settings F) (c : collector F) (o : outdoor F) (ts : Z)
    (m : stamped (sensor F)) (n : stamped nmea) (flagIndoor : bool) : res (outdoor F * position F) :=
  let g := gps_of s m in
  let dev := match g with Some (_, _, d) => d | None => fnan end in
  let o := if flagIndoor || (s_maxgpsdev s <! dev) then mkOutd (ou_last o) [] else o in
  match g with
  | None =>
      let since := fofZ (ts - p_ts (ou_last o)) /! fofZ 1000 in
      if s_gpsvalid s <! since then Ok (o, pos0) else Ok (o, ou_last o)
  | Some (la, lo, dev) =>
      match find (gps_on_level s la lo) (col_levels c) with
      | None => Ok (o, pos0)
      | Some l =>
          let p := gps_to_local (mkGeo la lo) (l_bind l) in
          let out := mkPos (px p) (py p) (l_id l) dev ts false GNSS f0 in
          '(buf, valid) <-
            (if negb (ts =? p_ts (ou_last o))%Z && s_sigma s
             then if Nat.eqb (List.length (ou_buf o)) (s_sigmawin s) && Nat.eqb (List.length (ou_buf o)) 0
                  then UB
                  else Ok (sigma_add (s_sigmawin s) (s_sigmadelta s) (ou_buf o) p)
             else Ok (ou_buf o, true)) ;;
          let sats := num_sats n in
          if negb valid || (negb (sats =? 0)%Z && (sats <? s_minsats s)%Z)
          then Ok (mkOutd (ou_last o) buf, pos0)
          else Ok (mkOutd out buf, out)
      end
  end.
End Est.
