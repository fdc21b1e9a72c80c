(** Radio-map likelihood.  Models src/likelihood/likelihood.cpp and
    src/likelihood/likelihood_radiomap.cpp. *)
From Verif Require Export Estimators.
Set Implicit Arguments.

Section Like.
Context {F : Type} {NF : Num F} {SO : Sorter}.

(** likelihood.cpp:12-29 isParticleInIntersectionArea *)
Fixpoint in_intersection_area (l : level F) (ms : list (radio F)) (x y : F) : res bool :=
  match ms with
  | [] => Ok true
  | m :: rest =>
      t <- get_tx l (r_id m) ;;
      let dx := zx (t_pt t) -! x in
      let dy := zy (t_pt t) -! y in
      if (r_dist m -! fsqrt (dx *! dx +! dy *! dy)) <! fopp (lit 1 10000000)
      then Ok false else in_intersection_area l rest x y
  end.

(** likelihood_radiomap.cpp:48-55 calcParticleWeight *)
Definition particle_weight (p q : XY F) : F :=
  let sq := (px p -! px q) *! (px p -! px q) +! (py p -! py q) *! (py p -! py q) in
  f1 /! (lit 1 10 +! fsqrt sq).

(** likelihood_radiomap.cpp:106-131 calculateRadiomapPoint *)
Definition radiomap_point (s : settings F) (kt : ktables F) (l : level F) (w : list (string * F)) :
    res (option (XY F)) :=
  if negb (s_triangles s) then p <- k_heaviest_average (l_rm l) w (s_kneigh s) ;; Ok (Some p)
  else
    match alookup (l_id l) (kt_tris kt) with
    | None => Ok None
    | Some [] => Ok None
    | Some ts => p <- position_in_triangle ts (l_rm l) w ;; Ok (Some p)
    end.

(** likelihood_radiomap.cpp:31-46 hasSufficientMeasurements...; [need] is
    minNumOfMeasurementsForPositionCalculation or minMsrNumForMutation *)
Definition sufficient (kt : ktables F) (l : level F) (ms : list (radio F)) (need : nat) : res bool :=
  ids <- at_or_throw (alookup (l_id l) (kt_refs kt)) ;;
  Ok (Nat.leb need (List.length (whitelisted ids ms))).

(** MIN_WEIGHT_SUM_DOUBLE_EPSILON, likelihood.h:14 *)
Definition min_weight_sum : F := lit 1 100000000.

(** likelihood_radiomap.cpp:57-104 calculateWeights *)
Definition particle_weights (s : settings F) (kt : ktables F) (l : level F) (ms : list (radio F))
    (ps : list (XY F)) : res (list F) :=
  ids <- at_or_throw (alookup (l_id l) (kt_refs kt)) ;;
  let valid := whitelisted ids ms in
  if Nat.ltb (List.length valid) (s_minmsr s)
  then Ok (map (fun _ => f1 /! fofnat (List.length ps)) ps)
  else
    rm <- at_or_throw (alookup (l_id l) (kt_rmaps kt)) ;;
    p <- radiomap_point s kt l (rp_weights rm valid (s_diff s)) ;;
    let ws := map (fun q => match p with Some c => particle_weight q c | None => f0 end) ps in
    let sum := fsum (fun w => w) ws in
    Ok (if min_weight_sum <! sum then map (fun w => w /! sum) ws else ws).

(** likelihood_radiomap.cpp:145-163 doPreliminaryCalculations; the state is
    mLikelihoodPoint *)
Definition preliminary (s : settings F) (kt : ktables F) (st : option (XY F)) (l : level F)
    (ms : list (radio F)) : res (option (XY F)) :=
  ids <- at_or_throw (alookup (l_id l) (kt_refs kt)) ;;
  let valid := whitelisted ids ms in
  if Nat.leb (s_minmsr s) (List.length valid) then
    rm <- at_or_throw (alookup (l_id l) (kt_rmaps kt)) ;;
    radiomap_point s kt l (rp_weights rm valid (s_diff s))
  else Ok st.
(** likelihood_radiomap.cpp:133-143 calculateSamplingCenters *)
Definition sampling_centers (s : settings F) (kt : ktables F) (st : option (XY F)) (l : level F)
    (ms : list (radio F)) : res (option (XY F) * list (XY F)) :=
  st <- preliminary s kt st l ms ;;
  Ok (st, match st with Some p => [p] | None => [] end).
(** likelihood_radiomap.cpp:165-173 getWeight *)
Definition point_weight (st : option (XY F)) (x y : F) : F :=
  match st with Some c => particle_weight (mkXY x y) c | None => f0 end.
End Like.
