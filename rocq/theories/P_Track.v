(** C64: convergence of the alpha-beta smoother. *)
From Coq Require Import Reals Lra.
From Verif Require Import Lib NumOrd NumReal NumFloat LibR SortInst Smooth Spec_Smooth Pf_Smooth Spec_Track Pf_Track Ex P_Post.
Local Open Scope string_scope.
Local Open Scope list_scope.
#[local] Existing Instance nf.

(** ** C64 *)
(** positions of a point in uniform motion, one every [H] ms: the error of the
    k-th result, and of the stored speed, is below an explicit bound that
    shrinks by the factor 1 - g with each result.  For a resting point the
    speed constraint and the barriers may be on and the interval may be long. *)
Theorem C64_tracks (s : settings RX) w al (a : absm RX) ps x y vx vy cx cy dx dy H :
  s_accsmooth s = false -> s_smoothing s = Some w -> ab_called a = true -> ab_state a x y vx vy -> (0 < H)%Z ->
  (s_speedcon s = false /\ s_barriers s = false /\ (H <= 10000)%Z) \/ (dx = 0%R /\ dy = 0%R) ->
  uniform (p_ts (ab_pos a)) H ps -> moving cx cy dx dy ps ->
  let g := gain_of w in let h := (IZR H / 1000)%R in
  forall k, (k < List.length ps)%nat -> exists r x' y' vx' vy',
    nth_error (smoothed s al a ps) k = Some r /\
    ab_state (fst (ab_run s a (map (ASmooth al) (firstn (S k) ps)))) x' y' vx' vy' /\ at_point r x' y' /\
    ((x' - (cx + INR (S k) * dx)) * (x' - (cx + INR (S k) * dx)) <= error_bound g (x - cx) (h * vx - dx) (S k))%R /\
    ((y' - (cy + INR (S k) * dy)) * (y' - (cy + INR (S k) * dy)) <= error_bound g (y - cy) (h * vy - dy) (S k))%R /\
    ((h * vx' - dx) * (h * vx' - dx) <= g * g / ((1 - g) * (2 - g)) * error_bound g (x - cx) (h * vx - dx) (S k))%R /\
    ((h * vy' - dy) * (h * vy' - dy) <= g * g / ((1 - g) * (2 - g)) * error_bound g (y - cy) (h * vy - dy) (S k))%R.
Proof. exact (@ab_tracks s w al a ps x y vx vy cx cy dx dy H). Qed.
Print Assumptions C64_tracks.

(** a resting point, from a resting state: the distance shrinks geometrically *)
Theorem C64_settles (s : settings RX) w al (a : absm RX) ps x y cx cy H :
  s_accsmooth s = false -> s_smoothing s = Some w -> ab_called a = true -> ab_state a x y 0 0 -> (0 < H)%Z ->
  uniform (p_ts (ab_pos a)) H ps -> moving cx cy 0 0 ps ->
  let g := gain_of w in
  forall k r, nth_error (smoothed s al a ps) k = Some r -> exists x' y', at_point r x' y' /\
    ((x' - cx) * (x' - cx) <= (2 - g) * (1 - g) ^ S k * ((x - cx) * (x - cx)))%R /\
    ((y' - cy) * (y' - cy) <= (2 - g) * (1 - g) ^ S k * ((y - cy) * (y - cy)))%R.
Proof. exact (@ab_settles s w al a ps x y cx cy H). Qed.
Print Assumptions C64_settles.

(** the results converge to the positions, at a rate fixed by the starting state *)
Theorem C64_limit (s : settings RX) w (a : absm RX) x y vx vy cx cy dx dy H eps :
  s_accsmooth s = false -> s_smoothing s = Some w -> ab_called a = true -> ab_state a x y vx vy -> (0 < H)%Z -> (0 < eps)%R ->
  (s_speedcon s = false /\ s_barriers s = false /\ (H <= 10000)%Z) \/ (dx = 0%R /\ dy = 0%R) ->
  exists N, forall al ps, uniform (p_ts (ab_pos a)) H ps -> moving cx cy dx dy ps ->
  forall k r p, (N <= k)%nat -> nth_error ps k = Some p -> nth_error (smoothed s al a ps) k = Some r ->
  exists x' y' px py, at_point r x' y' /\ at_point p px py /\ (Rabs (x' - px) < eps)%R /\ (Rabs (y' - py) < eps)%R.
Proof. exact (@ab_limit s w a x y vx vy cx cy dx dy H eps). Qed.
Print Assumptions C64_limit.

(** the gain lies in [0.1, 0.9], so the factor is at most 0.9 *)
Theorem C64_rate w : (1 / 10 <= gain_of w <= 9 / 10)%R.
Proof. exact (gain_of_bounds w). Qed.
Print Assumptions C64_rate.

(** the results are not confined to the segment from the old position to the
    new one: a point that moves from 0 to 10 and rests there is overshot *)
Definition ex_nospeed {F} {NF : Num F} (s : settings F) : settings F := {|
  s_algo := s_algo s; s_enu := s_enu s; s_txpower := s_txpower s; s_radiomap := s_radiomap s;
  s_stops := s_stops s; s_tracking := s_tracking s; s_stopdetect := s_stopdetect s; s_speed := s_speed s;
  s_mtype := s_mtype s; s_bestrp := s_bestrp s; s_baro := s_baro s; s_unknown := s_unknown s;
  s_cutoff := s_cutoff s; s_closest := s_closest s; s_nclosest := s_nclosest s; s_avg := s_avg s;
  s_shift := s_shift s; s_signals := s_signals s; s_kneigh := s_kneigh s; s_triangles := s_triangles s;
  s_diff := s_diff s; s_minmsr := s_minmsr s; s_smoothing := s_smoothing s; s_deadreck := s_deadreck s;
  s_stopupdate := s_stopupdate s; s_graphdist := s_graphdist s; s_stopsdist := s_stopsdist s;
  s_usesmooth := s_usesmooth s; s_graphproj := s_graphproj s; s_accsmooth := s_accsmooth s;
  s_speedcon := false; s_barriers := s_barriers s; s_timesmooth := s_timesmooth s;
  s_abfilter := s_abfilter s; s_altitude := s_altitude s; s_gps := s_gps s; s_instgps := s_instgps s;
  s_prefindoor := s_prefindoor s; s_fusegps := s_fusegps s; s_gpsoutside := s_gpsoutside s;
  s_sigma := s_sigma s; s_sigmawin := s_sigmawin s; s_sigmadelta := s_sigmadelta s; s_minsats := s_minsats s;
  s_priordev := s_priordev s; s_mingpsdev := s_mingpsdev s; s_maxgpsdev := s_maxgpsdev s;
  s_fuseborder := s_fuseborder s; s_nosignal := s_nosignal s; s_noaction := s_noaction s; s_posold := s_posold s;
  s_gpsvalid := s_gpsvalid s; s_calcaz := s_calcaz s; s_azlife := s_azlife s; s_stepmult := s_stepmult s;
  s_rttoff := s_rttoff s; s_levels := s_levels s |}.
Definition ex_rest {F} {NF : Num F} (ts : list Z) : list (position F) := map (fun t => ex_p (fofZ 10) f0 f1 t) ts.
Theorem C64_overshoot_refuted : exists (s : settings SF) (ps : list (position SF)) r,
  s_accsmooth s = false /\ s_barriers s = false /\
  Forall (fun p => (f0 <=! p_x p) && (p_x p <=! fofZ 10) = true) ps /\
  In r (snd (ab_run s ab0 (map (ASmooth (fun _ _ => true)) ps))) /\ (fofZ 10 <! p_x r) = true.
Proof.
  exists (ex_set false true true), (ex_p f0 f0 f1 1000 :: ex_rest [2000; 3000; 4000; 5000]%Z).
  eexists. split; [vm_compute; reflexivity|]. split; [vm_compute; reflexivity|]. split; [repeat constructor|].
  split; [vm_compute; right; right; right; left; reflexivity|vm_compute; reflexivity].
Qed.
Print Assumptions C64_overshoot_refuted.

(** with irregular intervals and no speed constraint the error can grow: a
    resting point seen at 10, then twice more after 1 ms and 1 s, is reported
    more than 800 m away *)
Theorem C64_irregular_refuted : exists (s : settings SF) (ps : list (position SF)) r,
  s_accsmooth s = false /\ s_barriers s = false /\ s_speedcon s = false /\
  Forall (fun p => (f0 <=! p_x p) && (p_x p <=! fofZ 10) = true) ps /\
  In r (snd (ab_run s ab0 (map (ASmooth (fun _ _ => true)) ps))) /\ (fofZ 800 <! p_x r) = true.
Proof.
  exists (ex_nospeed (ex_set false true true)), (ex_p f0 f0 f1 1000 :: ex_rest [1001; 2001]%Z).
  eexists. split; [vm_compute; reflexivity|]. split; [vm_compute; reflexivity|]. split; [vm_compute; reflexivity|]. split; [repeat constructor|].
  split; [vm_compute; right; right; left; reflexivity|vm_compute; reflexivity].
Qed.
Print Assumptions C64_irregular_refuted.

(** the hypotheses are met by a walk of 1 m every second, and by a resting point *)
Definition ex_start : absm RX := mkAB true (Some 0%R) (Some 0%R) (ex_p (Some 0%R) (Some 0%R) (Some 1%R) 1000).
Definition ex_walk : list (position RX) :=
  [ex_p (Some 1%R) (Some 0%R) (Some 1%R) 2000; ex_p (Some 2%R) (Some 0%R) (Some 1%R) 3000; ex_p (Some 3%R) (Some 0%R) (Some 1%R) 4000].
Example C64_example_walk : let s : settings RX := ex_nospeed (ex_set false true true) in
  s_accsmooth s = false /\ s_smoothing s = Some (1 / 2)%R /\ s_speedcon s = false /\ s_barriers s = false /\
  ab_called ex_start = true /\ ab_state ex_start 0 0 0 0 /\
  uniform (p_ts (ab_pos ex_start)) 1000 ex_walk /\ moving 0 0 1 0 ex_walk.
Proof.
  split; [reflexivity|]. split; [apply (@rx_lit 1 2); lra|]. do 3 (split; [reflexivity|]). split; [repeat split|]. split.
  - intros [|[|[|k]]] p Hp; cbn in Hp; try (injection Hp as <-; reflexivity). destruct k; discriminate.
  - intros [|[|[|k]]] p Hp; cbn in Hp; try (injection Hp as <-; split; cbn -[INR]; f_equal; cbn; lra). destruct k; discriminate.
Qed.
Example C64_example_rest : let ps : list (position RX) := [ex_p (Some 5%R) (Some 7%R) (Some 1%R) 16000; ex_p (Some 5%R) (Some 7%R) (Some 1%R) 31000] in
  uniform (p_ts (ab_pos ex_start)) 15000 ps /\ moving 5 7 0 0 ps.
Proof.
  split.
  - intros [|[|k]] p Hp; cbn in Hp; try (injection Hp as <-; reflexivity). destruct k; discriminate.
  - intros [|[|k]] p Hp; cbn in Hp; try (injection Hp as <-; split; cbn -[INR]; f_equal; cbn; lra). destruct k; discriminate.
Qed.
