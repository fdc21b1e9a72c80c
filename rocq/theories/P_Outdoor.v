(** C26-C30: GNSS. *)
From Coq Require Import Reals Lra.
From Verif Require Import Lib LibR NumOrd NumReal NumFloat SortInst Estimators Client Spec_Preproc Spec_Client Spec_Outdoor
  Pf_Preproc Pf_Client Pf_ClientInv Pf_ClientThrow Pf_ClientTop Pf_Outdoor Pf_Gnss Ex P_Client.
Local Open Scope string_scope.
Local Open Scope list_scope.
#[local] Existing Instance nf.
#[local] Existing Instance isorter.

(** ** C26 *)
(** the filter from an empty buffer: the buffer is the last n points, and a
    point is accepted iff n points precede it and both coordinates are within
    3 population standard deviations + delta of the mean of the last n *)
Theorem C26_sigma_filter (n : nat) (delta : R) (ps : list (R * R)) : (1 <= n)%nat ->
  exists oks, sigma_run n (Some delta : RX) [] (map rxy ps) = (map rxy (lastn n ps), oks) /\
  List.length oks = List.length ps /\
  forall i p ok, nth_error ps i = Some p -> nth_error oks i = Some ok ->
    (ok = true <-> (n <= i)%nat /\
       within delta (map fst (lastn n (firstn i ps))) (fst p) /\
       within delta (map snd (lastn n (firstn i ps))) (snd p)).
Proof. intros Hn. exact (@sigma_run_real n delta ps Hn []). Qed.
Print Assumptions C26_sigma_filter.

Theorem C26_buffer_bound {F : Type} {NF : Num F} {SO : Sorter} (e : env F) (k : config F) (c : client F) :
  reachable e k c -> (List.length (ou_buf (c_outd c)) <= s_sigmawin (cf_set k))%nat.
Proof. exact (@buf_reachable F NF SO e k c). Qed.
Print Assumptions C26_buffer_bound.

(** window 0: the first fix on a level is undefined behaviour *)
Theorem C26_window_zero_ub {F : Type} {NF : Num F} {SO : Sorter} (e : env F) (k : config F) (c : client F)
    (m : measurement F) (la lo acc : F) (l : level F) :
  reachable e k c -> s_sigma (cf_set k) = true -> s_sigmawin (cf_set k) = 0%nat ->
  st_data m = MSensor (mkSensor LOCATION (mkV la lo acc)) -> st_ts m <> p_ts (ou_last (c_outd c)) ->
  In l (col_levels (cf_col k)) -> (s_gpsoutside (cf_set k) = true \/ gnss_inside la lo l) ->
  (forall n, outdoor_position (cf_set k) (cf_col k) (c_outd c) (st_ts m)
     (mkSt (mkSensor LOCATION (mkV la lo acc)) (st_ts m)) n (c_flag c) = UB) /\
  (forall r, nav_step e k c m <> Ok r).
Proof. exact (@no_window F NF SO e k c m la lo acc l). Qed.
Print Assumptions C26_window_zero_ub.

Definition ex_xy (x y : Z) : XY SF := mkXY (fofZ x) (fofZ y).
Example C26_example : snd (sigma_run 2 (fofZ 1) [] [ex_xy 0 0; ex_xy 2 0; ex_xy 1 1; ex_xy 9 1; ex_xy 17 1]) =
  [false; false; true; false; true].
Proof. vm_compute. reflexivity. Qed.
Example C26_example_window_zero : ex_run (ex_sigma 0 (ex_zones false)) ex_gls (ex_garbage 0) [[ex_msn LOCATION 1 1 3 1000]] = UB /\
  ex_stats (ex_run (ex_sigma 0 (ex_zones false)) ex_gls (ex_garbage 0) [[ex_msn LOCATION 60 60 3 1000]]) = Ok [[NO_LEVEL]].
Proof. split; vm_compute; reflexivity. Qed.

(** ** C27 *)
Theorem C27_provenance {F : Type} {NF : Num F} (s : settings F) (c : collector F)
    (cs : list (ocall F)) (o' : outdoor F) (ps : list (position F)) (i : nat) (p : position F) (x : ocall F) :
  outdoor_run s c outdoor0 cs = Ok (o', ps) ->
  nth_error ps i = Some p -> nth_error cs i = Some x -> p_empty p = false ->
  fix_of s c x p \/
  (s_type (st_data (ca_sensor x)) <> LOCATION /\
   (s_gpsvalid s <! (fofZ (ca_ts x - p_ts p) /! fofZ 1000)) = false /\
   exists j y, (j < i)%nat /\ nth_error cs j = Some y /\ nth_error ps j = Some p /\ fix_of s c y p).
Proof.
  intros H Hp Hx He. destruct (@provenance F NF s c cs _ _ _ H) as [_ G].
  destruct (G i p x Hp Hx He) as [A|(A & B & [C|(j & y & C1 & C2 & C3 & C4)])]; [left; exact A|subst p; discriminate|right].
  split; [exact A|]. split; [exact B|]. exists j, y. auto.
Qed.
Print Assumptions C27_provenance.

Theorem C27_min_deviation {F : Type} {NF : Num F} {NO : NumOrd F} (s : settings F) (c : collector F)
    (x : ocall F) (p : position F) : fix_of s c x p -> (p_dev p <! s_mingpsdev s) = false.
Proof. intros (la & lo & acc & b & l & a & _ & _ & _ & _ & _ & _ & _ & _ & _ & ->). apply dev_bound. Qed.
Print Assumptions C27_min_deviation.

(** the estimator inside a client is such a run, one call per accepted
    measurement, at its time *)
Theorem C27_client_calls {F : Type} {NF : Num F} {SO : Sorter} (e : env F) (k : config F) (g : garbage F)
    (bs : list (list (measurement F))) (c : client F) (os : list (list (noutput F))) :
  navigate_all e k (client0 g (cf_set k)) bs = Ok (c, os) ->
  exists cs ps, outdoor_run (cf_set k) (cf_col k) outdoor0 cs = Ok (c_outd c, ps) /\
    map (@ca_ts F) cs = List.concat (map (fun b => map (@st_ts _) (accepted b)) bs).
Proof. exact (@client_outdoor_all F NF SO e k bs (client0 g (cf_set k)) c os). Qed.
Print Assumptions C27_client_calls.

Definition ex_call (ts : Z) (m : stamped (sensor SF)) : ocall SF := mkCall ts m (mkSt (mkNmea 0 0) 0%Z) false.
Example C27_example :
  ('(_, ps) <- outdoor_run (ex_zones false) ex_col outdoor0
      [ex_call 1000 (ex_sensor LOCATION 0 0 3 1000); ex_call 1500 (ex_sensor ACCELEROMETER 0 0 9 1500);
       ex_call 9000 (ex_sensor ACCELEROMETER 0 0 9 9000); ex_call 9500 (ex_sensor LOCATION (-1) 0 3 9500)] ;;
   Ok (map (fun p => (p_empty p, p_level p, p_ts p)) ps)) =
  Ok [(false, "L1", 1000%Z); (false, "L1", 1000%Z); (true, "", 0%Z); (true, "", 0%Z)].
Proof. vm_compute. reflexivity. Qed.

(** ** C28 *)
Theorem C28_maximum_unused {F : Type} {NF : Num F} {SO : Sorter} (e : env F) (s : settings F)
    (gs : list (geolevel F)) (k : config F) (z : F) : s_sigma s = false -> built s gs k ->
  exists k', built (with_maxgps s z) gs k' /\
    forall g bs, navigate_all e k' (client0 g (with_maxgps s z)) bs = navigate_all e k (client0 g s) bs.
Proof. exact (@max_unused F NF SO e s gs k z). Qed.
Print Assumptions C28_maximum_unused.

(** a fix whose deviation is above the maximum is reported *)
Theorem C28_maximum_enforced_refuted : exists (s : settings SF) gs k g m c o,
  built s gs k /\ nav_step ex_env k (client0 g s) m = Ok (c, o) /\
  st_data m = MSensor (mkSensor LOCATION (mkV (fofZ 1) (fofZ 1) (fofZ 5000))) /\
  s_maxgpsdev s = fofZ 10 /\ o_status o = OK /\ o_prov o = Some GNSS /\ o_r o = Some (fofZ 5000).
Proof.
  destruct (ex_config (with_maxgps (ex_zones false) (fofZ 10)) ex_gls) as [k| | |] eqn:E; [|vm_compute in E; discriminate..].
  assert (B := ex_built _ _ _ E).
  destruct (nav_step ex_env k (client0 (ex_garbage (-100000)) (with_maxgps (ex_zones false) (fofZ 10)))
    (ex_msn LOCATION 1 1 5000 1000)) as [[c o]| | |] eqn:E1; [|vm_compute in E; injection E as <-; vm_compute in E1; discriminate..].
  exists (with_maxgps (ex_zones false) (fofZ 10)), ex_gls, k, (ex_garbage (-100000)), (ex_msn LOCATION 1 1 5000 1000), c, o.
  split; [exact B|]. split; [exact E1|]. split; [reflexivity|]. split; [reflexivity|].
  vm_compute in E; injection E as <-; vm_compute in E1. injection E1 as <- <-. repeat split.
Qed.
Print Assumptions C28_maximum_enforced_refuted.
Example C28_example : s_sigma (ex_zones false : settings SF) = false.
Proof. reflexivity. Qed.

(** ** C29 *)
(** without a radio signal for the no-signal time the GNSS position of the
    outdoor estimator is reported *)
Theorem C29_gnss_reported {F : Type} {NF : Num F} {SO : Sorter} (e : env F) (s : settings F)
    (gs : list (geolevel F)) (k : config F) (c : client F) (m : measurement F) (c' : client F) (o : noutput F) :
  built s gs k -> NoDup (map (@gl_id F) gs) -> ~ In "" (map (@gl_id F) gs) ->
  stale k c m -> nav_step e k c m = Ok (c', o) ->
  exists outp, outdoor_position s (cf_col k) (c_outd c) (st_ts m) (pp_sensor (c_pre c')) (pp_nmea (c_pre c')) (c_flag c)
      = Ok (c_outd c', outp) /\ (p_empty outp = false -> same_place (cf_col k) outp o).
Proof.
  intros Hb Hn He Hs H. destruct (built_sound Hb Hn He) as [S <-].
  exact (@gnss_reported F NF SO e k c m c' o (sd_wf S) (sd_noempty S) Hs H).
Qed.
Print Assumptions C29_gnss_reported.
(** and whatever Use_gps says the whole result of the step is the same *)
Theorem C29_use_gps_ignored {F : Type} {NF : Num F} {SO : Sorter} (e : env F) (s : settings F)
    (gs : list (geolevel F)) (k : config F) (b : bool) :
  built s gs k -> NoDup (map (@gl_id F) gs) -> ~ In "" (map (@gl_id F) gs) ->
  exists k', built (with_gps s b) gs k' /\
    forall c m, stale k c m -> nav_step e k' c m = nav_step e k c m.
Proof.
  intros Hb Hn He. destruct (built_sound Hb Hn He) as [S <-]. exists (config_gps k b). split.
  - destruct Hb as (c0 & Hc & Hk). exists c0. split; [exact Hc|].
    assert (G : mk_config (with_gps (cf_set k) b) c0 = (k0 <- mk_config (cf_set k) c0 ;; Ok (config_gps k0 b))).
    { unfold mk_config. change (is_knn (with_gps (cf_set k) b)) with (is_knn (cf_set k)).
      change (zone_tables (with_gps (cf_set k) b) c0) with (zone_tables (cf_set k) c0).
      destruct (if is_knn (cf_set k) then Ok [] else zone_tables (cf_set k) c0) as [zt| | |]; cbn [bind]; try reflexivity.
      destruct (if is_knn (cf_set k) then triangulate c0 else Ok []) as [tr| | |]; cbn [bind]; try reflexivity.
      change (buffer_config (with_gps (cf_set k) b)) with (buffer_config (cf_set k)).
      destruct (buffer_config (cf_set k)) as [bc| | |]; cbn [bind]; try reflexivity.
      change (post_config (with_gps (cf_set k) b)) with (post_config (cf_set k)).
      destruct (post_config (cf_set k)) as [pc| | |]; cbn [bind]; reflexivity. }
    rewrite G, Hk. reflexivity.
  - intros c m Hs. apply gps_ignored; [apply (sd_wf S)|apply (sd_noempty S)|exact Hs].
Qed.
Print Assumptions C29_use_gps_ignored.
(** two histories that differ only in the content of GNSS and NMEA
    measurements leave the same client apart from the GNSS part of its
    memory, and whenever an indoor position is computed the outputs agree *)
Theorem C29_non_interference {F : Type} {NF : Num F} {SO : Sorter} (e : env F) (k : config F) (g : garbage F)
    (bs bs' : list (list (measurement F))) (m m' : measurement F) c os c' os' c1 o c1' o' :
  s_gps (cf_set k) = false -> s_instgps (cf_set k) = false ->
  Forall2 (Forall2 same_but_gnss) bs bs' -> same_but_gnss m m' ->
  navigate_all e k (client0 g (cf_set k)) bs = Ok (c, os) ->
  navigate_all e k (client0 g (cf_set k)) bs' = Ok (c', os') ->
  nav_step e k c m = Ok (c1, o) -> nav_step e k c' m' = Ok (c1', o') ->
  same_client c1 c1' /\ (c_flag c1 = true -> o = o').
Proof.
  intros Hg Hi Hb Hm H H' N N'.
  assert (S := @blind_history F NF SO e k bs bs' _ _ _ _ _ _ Hg Hi (same_client_refl _) Hb H H').
  exact (@blind_step F NF SO e k c c' m m' _ _ _ _ Hg Hi S Hm N N').
Qed.
Print Assumptions C29_non_interference.

(** Use_gps off, yet the output is a GNSS position *)
Definition ex_nogps : settings SF := with_gps (ex_zones false) false.
Example C29_example : ('(_, os) <- ex_run ex_nogps ex_gls (ex_garbage (-100000)) [[ex_msn LOCATION 1 1 3 1000]] ;;
    Ok (map (map (fun o => (o_status o, o_prov o))) os)) = Ok [[(OK, Some GNSS)]].
Proof. vm_compute. reflexivity. Qed.
Example C29_example_blind : s_gps ex_nogps = false /\ s_instgps ex_nogps = false /\
  same_but_gnss (ex_msn LOCATION 1 1 3 500 : measurement SF) (ex_msn LOCATION 7 7 9 500) /\
  ('(c, os) <- ex_run ex_nogps ex_gls (ex_garbage 0) [[ex_msn LOCATION 1 1 3 500]; ex_b1] ;; Ok (c_flag c, map (map (@o_status SF)) os)) =
  Ok (true, [[OK]; [OK; OK; OK]]).
Proof.
  split; [reflexivity|]. split; [reflexivity|]. split; [|vm_compute; reflexivity].
  split; [reflexivity|]. right. left. eexists _, _. repeat split; reflexivity.
Qed.

(** ** C30 *)
(** the pedometer stores the old sample again *)
Theorem C30_pedometer_replay {F : Type} {NF : Num F} {SO : Sorter} (e : env F) (k : config F) (c : client F)
    (m : measurement F) (c' : client F) (o : noutput F) :
  not_sensor m -> nav_step e k c m = Ok (c', o) -> s_type (st_data (pp_sensor (c_pre c))) = ACCELEROMETER ->
  pp_sensor (c_pre c') = pp_sensor (c_pre c) /\
  exists gone, pd_acc (sf_ped (c_sf c)) ++ [pp_sensor (c_pre c)] = gone ++ pd_acc (sf_ped (c_sf c')) /\
    pd_acc (sf_ped (c_sf c')) <> [].
Proof. exact (@replay_pedometer F NF SO e k c m c' o). Qed.
Print Assumptions C30_pedometer_replay.

(** after any number of radio measurements the last LOCATION sample counts
    as a fix of the current time *)
Theorem C30_fix_restamped {F : Type} {NF : Num F} {SO : Sorter} (e : env F) (k : config F) (c : client F)
    (ms : list (measurement F)) (m : measurement F) c' os before l after la lo acc :
  s_sigma (cf_set k) = false ->
  ((num_sats (pp_nmea (c_pre c)) =? 0) || (s_minsats (cf_set k) <=? num_sats (pp_nmea (c_pre c))))%Z = true ->
  st_data (pp_sensor (c_pre c)) = mkSensor LOCATION (mkV la lo acc) ->
  col_levels (cf_col k) = before ++ l :: after -> (s_gpsoutside (cf_set k) = true \/ gnss_inside la lo l) ->
  Forall (fun l' => s_gpsoutside (cf_set k) = false /\ ~ gnss_inside la lo l') before ->
  Forall is_radio (ms ++ [m]) -> process e k c (ms ++ [m]) = Ok (c', os) ->
  ou_last (c_outd c') = location_fix (cf_set k) l la lo acc (st_ts m).
Proof. exact (@replay_forever F NF SO e k ms c m c' os before l after la lo acc). Qed.
Print Assumptions C30_fix_restamped.

(** so a client without radio signal keeps reporting it while rejected radio
    measurements arrive, however old it is *)
Theorem C30_fix_reported_forever {F : Type} {NF : Num F} {SO : Sorter} (e : env F) (s : settings F)
    (gs : list (geolevel F)) (k : config F) (c : client F) (ms : list (measurement F)) c' os before l after la lo acc :
  built s gs k -> NoDup (map (@gl_id F) gs) -> ~ In "" (map (@gl_id F) gs) ->
  s_sigma s = false ->
  ((num_sats (pp_nmea (c_pre c)) =? 0) || (s_minsats s <=? num_sats (pp_nmea (c_pre c))))%Z = true ->
  st_data (pp_sensor (c_pre c)) = mkSensor LOCATION (mkV la lo acc) ->
  col_levels (cf_col k) = before ++ l :: after -> (s_gpsoutside s = true \/ gnss_inside la lo l) ->
  Forall (fun l' => s_gpsoutside s = false /\ ~ gnss_inside la lo l') before ->
  Forall (fun m => is_radio m /\ stale k c m) ms -> process e k c ms = Ok (c', os) ->
  Forall2 (fun m o => same_place (cf_col k) (location_fix s l la lo acc (st_ts m)) o) ms os.
Proof.
  intros Hb Hn He. destruct (built_sound Hb Hn He) as [S <-].
  exact (@replay_report F NF SO e k ms c c' os before l after la lo acc (sd_wf S) (sd_noempty S)).
Qed.
Print Assumptions C30_fix_reported_forever.

(** one fix, then an unknown transmitter heard hours later *)
Example C30_example :
  ('(_, os) <- ex_run (ex_zones false) ex_gls (ex_garbage (-100000))
     [[ex_msn LOCATION 1 1 3 1000]; [ex_mr "zz" (-50) 100000]; [ex_mr "zz" (-50) 99999000]] ;;
   Ok (map (map (fun o => (o_status o, o_prov o))) os)) =
  Ok [[(OK, Some GNSS)]; [(OK, Some GNSS)]; [(OK, Some GNSS)]] /\
  ('(c, _) <- ex_run (ex_zones false) ex_gls (ex_garbage (-100000))
     [[ex_msn LOCATION 1 1 3 1000]; [ex_mr "zz" (-50) 100000]; [ex_mr "zz" (-50) 99999000]] ;;
   Ok (p_ts (ou_last (c_outd c)))) = Ok 99999000%Z.
Proof. split; vm_compute; reflexivity. Qed.
Example C30_example_pedometer :
  ('(c, _) <- ex_run (ex_zones false) ex_gls (ex_garbage 0)
     [[ex_msn ACCELEROMETER 0 0 9 1000]; [ex_mr "a" (-50) 1100]; [ex_mr "a" (-50) 1200]] ;;
   Ok (map (@st_ts _) (pd_acc (sf_ped (c_sf c))))) = Ok [1000; 1000; 1000]%Z.
Proof. vm_compute. reflexivity. Qed.
