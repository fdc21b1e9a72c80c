(** C100: without GNSS, fixes of the fingerprint estimator lie among the
    reference points and the origin; without triangles they are all one corner
    of the map. *)
From Coq Require Import Reals Lra Lia Sorted.
From Verif Require Import Lib NumReal LibR NumFloat SortInst Client Spec_Preproc Spec_Client Spec_Post Spec_UB Spec_Knn Spec_Geo Spec_Num Spec_Place Spec_PlaceK
  Pf_Client Pf_ClientThrow Pf_Post Pf_ClientUB Pf_Geo Pf_Place Pf_DocUB Pf_PlaceK Ex P_Client P_UB P_Place.
Local Open Scope string_scope.
Local Open Scope list_scope.
#[local] Existing Instance nf.
#[local] Existing Instance isorter.

(** a KNN client that hears transmitters in the radio map of one level only and
    no GNSS: every fix lies in any rectangle of the map with the origin and,
    when it uses triangles, the reference points of the level; corners rounded
    down to centimetres.  Any rectangle without the smoothers, a single point
    with whichever of them *)
Theorem C100_map {SO : Sorter} (e : env RX) (s : settings RX) (gs : list (geolevel RX)) (k : config RX) (l : level RX) (r : rect)
    (g : garbage RX) (bs : list (list (measurement RX))) (c : client RX) (os : list (list (noutput RX))) :
  built s gs k -> NoDup (map (@gl_id RX) gs) -> ~ In "" (map (@gl_id RX) gs) -> In l (col_levels (cf_col k)) -> on_map l r ->
  in_rect r 0 0 -> s_algo s = KNN -> s_graphproj s = false ->
  (s_usesmooth s = false /\ s_timesmooth s = false) \/ one_spot r ->
  (s_triangles s = true -> Forall real_geolevel gs /\ spans r l /\ Forall (Forall real_measurement) bs) ->
  s_type (st_data (g_sensor g)) <> LOCATION -> Forall (Forall (maps_only (cf_col k) l)) bs ->
  navigate_all e k (client0 g s) bs = Ok (c, os) ->
  Forall (Forall (fun o => o_status o = OK -> fix_in l r o)) os.
Proof. exact (@placeK SO e s gs k l r g bs c os). Qed.
Print Assumptions C100_map.

(** without triangles, whatever the settings otherwise, the map and the signals:
    every fix of a KNN client is the south-western corner of the bounding box of
    its level *)
Theorem C100_corner {SO : Sorter} (e : env RX) (s : settings RX) (gs : list (geolevel RX)) (k : config RX)
    (g : garbage RX) (bs : list (list (measurement RX))) (c : client RX) (os : list (list (noutput RX))) :
  built s gs k -> NoDup (map (@gl_id RX) gs) -> ~ In "" (map (@gl_id RX) gs) -> Forall plain_box gs ->
  s_algo s = KNN -> s_triangles s = false -> s_graphproj s = false ->
  s_type (st_data (g_sensor g)) <> LOCATION -> Forall (Forall no_gnss) bs ->
  navigate_all e k (client0 g s) bs = Ok (c, os) ->
  Forall (Forall (fun o => o_status o = OK -> at_corner gs o)) os.
Proof. exact (@knn_corner SO e s gs k g bs c os). Qed.
Print Assumptions C100_corner.

(** a level with four reference points and one with one *)
Section Ex.
Context {F : Type} {NF : Num F}.
Definition exk_fp (id : string) (v : Z) : string * sigstat F := (id, mkSS TBEACON (fofZ v) f1 10%Z).
Definition exk_rp (id : string) (y x : Z) (fp : list (string * sigstat F)) : grefpoint F := mkGRP id (mkGeo (fofZ y) (fofZ x)) fp.
Definition exk_gls : list (geolevel F) :=
  [ex_gl "L1" [ex_gtx "a" 1 1; ex_gtx "b" 10 1; ex_gtx "c" 1 10]
     [exk_rp "p" 1 1 [exk_fp "a" (-50); exk_fp "b" (-70); exk_fp "c" (-70)];
      exk_rp "q" 1 10 [exk_fp "a" (-70); exk_fp "b" (-80); exk_fp "c" (-50)];
      exk_rp "r" 10 2 [exk_fp "a" (-70); exk_fp "b" (-50); exk_fp "c" (-80)];
      exk_rp "s" 11 12 [exk_fp "a" (-80); exk_fp "b" (-70); exk_fp "c" (-70)]];
   ex_gl "L2" [ex_gtx "d" 1 1] [exk_rp "t" 2 2 [exk_fp "d" (-50)]]].
Definition exk_set (tri : bool) : settings F :=
  let s := ex_settings_lv [] false false KNN false 3%nat true false false in {|
  s_algo := s_algo s; s_enu := s_enu s; s_txpower := s_txpower s; s_radiomap := s_radiomap s;
  s_stops := s_stops s; s_tracking := s_tracking s; s_stopdetect := s_stopdetect s; s_speed := s_speed s;
  s_mtype := s_mtype s; s_bestrp := s_bestrp s; s_baro := s_baro s; s_unknown := s_unknown s;
  s_cutoff := s_cutoff s; s_closest := s_closest s; s_nclosest := s_nclosest s; s_avg := s_avg s;
  s_shift := s_shift s; s_signals := s_signals s; s_kneigh := s_kneigh s; s_triangles := tri;
  s_diff := s_diff s; s_minmsr := s_minmsr s; s_smoothing := s_smoothing s; s_deadreck := s_deadreck s;
  s_stopupdate := s_stopupdate s; s_graphdist := s_graphdist s; s_stopsdist := s_stopsdist s;
  s_usesmooth := s_usesmooth s; s_graphproj := s_graphproj s; s_accsmooth := s_accsmooth s;
  s_speedcon := s_speedcon s; s_barriers := s_barriers s; s_timesmooth := s_timesmooth s;
  s_abfilter := s_abfilter s; s_altitude := s_altitude s; s_gps := s_gps s; s_instgps := s_instgps s;
  s_prefindoor := s_prefindoor s; s_fusegps := s_fusegps s; s_gpsoutside := s_gpsoutside s;
  s_sigma := s_sigma s; s_sigmawin := s_sigmawin s; s_sigmadelta := s_sigmadelta s; s_minsats := s_minsats s;
  s_priordev := s_priordev s; s_mingpsdev := s_mingpsdev s; s_maxgpsdev := s_maxgpsdev s;
  s_fuseborder := s_fuseborder s; s_nosignal := s_nosignal s; s_noaction := s_noaction s; s_posold := s_posold s;
  s_gpsvalid := s_gpsvalid s; s_calcaz := s_calcaz s; s_azlife := s_azlife s; s_stepmult := s_stepmult s;
  s_rttoff := s_rttoff s; s_levels := s_levels s |}.
Definition exk_log : list (measurement F) :=
  [ex_mr "a" (-52) 1000; ex_mr "b" (-68) 1100; ex_msn ACCELEROMETER 0 0 9 1200; ex_mr "c" (-71) 1300; ex_mr "x" (-40) 1800; ex_mr "a" (-54) 2100].
End Ex.
(** in doubles there are fixes: with triangles near the point "p", without them the corner *)
Definition exk_fixes (tri : bool) : res (list (string * SF * SF)) :=
  k <- ex_config (exk_set tri) exk_gls ;;
  '(_, os) <- navigate_all ex_env k (client0 (ex_garbage 0) (exk_set tri)) [exk_log] ;;
  Ok (map (fun o => (o_level o, o_lat o, o_lon o)) (filter (fun o => status_eqb (o_status o) OK) (List.concat os))).
Example C100_fixes : (exists x y, exk_fixes true = Ok [("L1", x, y)] /\
    ((fofZ 2 <! x) && (x <! fofZ 3) && (fofZ 3 <! y) && (y <! fofZ 4))%bool = true) /\
  exk_fixes false = Ok [("L1", f0, f0)].
Proof.
  split; [|vm_compute; reflexivity]. destruct (exk_fixes true) as [x| | |] eqn:E; vm_compute in E; try discriminate E.
  apply Pf_Radio.Ok_inj in E. subst x. eexists _, _. split; [reflexivity|]. vm_compute. reflexivity.
Qed.

(** over the reals every hypothesis holds of the same map and log *)
Definition exk_l1 : level RX := match @local_level RX num_real (nth 0 (@exk_gls RX num_real) (@ex_gl RX num_real "" [] [])) with Ok l => l | _ => @ex_L1 RX num_real end.
Definition exk_l2 : level RX := match @local_level RX num_real (nth 1 (@exk_gls RX num_real) (@ex_gl RX num_real "" [] [])) with Ok l => l | _ => @ex_L1 RX num_real end.
Definition exk_rect : rect := mkRect 0 0 (12 * ex_x) (11 * ex_y).
Lemma exk_col : add_geo_levels col0 (@exk_gls RX num_real) = Ok (mkCol [exk_l1; exk_l2] [("L1", 0%nat); ("L2", 1%nat)]).
Proof. reflexivity. Qed.
Lemma exk_bind b : get_binding (@ex_gl RX num_real b [] []) = rx_geo (0, 0)%R.
Proof.
  unfold get_binding, correct_box, ex_gl. cbn [gl_box bmin bmax px py]. rewrite !rx_ofZ, !rx_ltb.
  assert (E : Rltb 50 0 = false) by (apply Rltb_false; lra). rewrite E. reflexivity.
Qed.
Lemma exk_rps1 : map (fun r => (rp_id r, rp_pt r, map fst (rp_fp r))) (rm_points (l_rm exk_l1)) =
  [("p", rx_pt (1 * ex_x, 1 * ex_y)%R, ["a"; "b"; "c"]); ("q", rx_pt (10 * ex_x, 1 * ex_y)%R, ["a"; "b"; "c"]);
   ("r", rx_pt (2 * ex_x, 10 * ex_y)%R, ["a"; "b"; "c"]); ("s", rx_pt (12 * ex_x, 11 * ex_y)%R, ["a"; "b"; "c"])].
Proof.
  assert (G : forall a b, (0 <= a <= 50)%Z -> (0 <= b <= 50)%Z ->
    rx_pt (IZR b * ex_x, IZR a * ex_y)%R = gps_to_local (mkGeo (@fofZ RX num_real a) (@fofZ RX num_real b)) (get_binding (@ex_gl RX num_real "L1" [] []))).
  { intros a b Ha Hb. rewrite exk_bind. symmetry. apply ex_gps; assumption. }
  rewrite (G 1%Z 1%Z), (G 1%Z 10%Z), (G 10%Z 2%Z), (G 11%Z 12%Z) by lia. reflexivity.
Qed.
Lemma exk_rps2 : map (fun r => (rp_id r, rp_pt r, map fst (rp_fp r))) (rm_points (l_rm exk_l2)) = [("t", rx_pt (2 * ex_x, 2 * ex_y)%R, ["d"])].
Proof.
  rewrite <- (ex_gps 2 2) by lia. rewrite <- (exk_bind "L2"). reflexivity.
Qed.
Lemma exk_box : real_box (l_box exk_l1) 0 0 (50 * ex_x) (50 * ex_y).
Proof. exact ex_lr_box. Qed.
Lemma exk_built tri : exists k, built (@exk_set RX num_real tri) exk_gls k /\ col_levels (cf_col k) = [exk_l1; exk_l2].
Proof.
  assert (P : forall l, In l [exk_l1; exk_l2] -> Spec_Tri.proper (map (fun rp => mkTV (px (rp_pt rp)) (py (rp_pt rp)) (rp_id rp)) (rm_points (l_rm l)))).
  { assert (G : forall l L, map (fun r => (rp_id r, rp_pt r, map fst (rp_fp r))) (rm_points (l_rm l)) = L ->
      map (fun rp => mkTV (px (rp_pt rp)) (py (rp_pt rp)) (rp_id rp)) (rm_points (l_rm l)) =
      map (fun e : string * XY RX * list string => mkTV (px (snd (fst e))) (py (snd (fst e))) (fst (fst e))) L).
    { intros l L <-. rewrite map_map. reflexivity. }
    intros l [<-|[<-|[]]]; [rewrite (G _ _ exk_rps1)|rewrite (G _ _ exk_rps2)]; clear G; cbn [map fst snd rx_pt px py]; unfold Spec_Tri.proper;
      cbn [map Spec_Tri.loc tv_id tv_x tv_y rx_pt].
    - split; [repeat (apply Forall_cons; [split; reflexivity|]); apply Forall_nil|].
      split; [repeat constructor; cbn; intuition discriminate|].
      split; [intros v [<-|[<-|[<-|[<-|[]]]]]; cbn; intuition discriminate|].
      unfold Spec_Tri.loc. cbn [tv_x tv_y rval].
      repeat constructor; cbn [In]; intros H; repeat (destruct H as [H|H]; [injection H; unfold ex_x, ex_y; lra|]); exact H.
    - split; [repeat (apply Forall_cons; [split; reflexivity|]); apply Forall_nil|].
      split; [repeat constructor; cbn; intuition discriminate|].
      split; [intros v [<-|[]]; cbn; intuition discriminate|].
      repeat constructor. intros []. }
  destruct (@knn_config isorter (@exk_set RX num_real tri) (mkCol [exk_l1; exk_l2] [("L1", 0%nat); ("L2", 1%nat)]) eq_refl P) as [[_ G] _].
  destruct G as [k Hk].
  - assert (T : forall z, (0 <= z < 2 ^ 50)%Z -> exists y, ftoZ (fofZ 1000 *! @fofZ RX num_real z) = Some y).
    { intros z Hz. assert (E := to_ms_real z Hz). unfold to_ms in E. destruct (ftoZ _) as [y|]; [eauto|discriminate]. }
    intros x [<-|[<-|[<-|[<-|[<-|[]]]]]]; [apply (T 1%Z)|apply (T 0%Z)|apply (T 3%Z)|apply (T 5%Z)|apply (T 4%Z)]; lia.
  - exists k. split; [eexists; split; [exact exk_col|exact Hk]|].
    unfold mk_config in Hk. inv_bind Hk. inv_bind Hb. inv_bind Hb0. inv_bind Hb. injection Hb0 as <-. reflexivity.
Qed.
Example C100_example (tri : bool) : exists k c os n0, built (@exk_set RX num_real tri) exk_gls k /\
  In exk_l1 (col_levels (cf_col k)) /\ on_map exk_l1 exk_rect /\ in_rect exk_rect 0 0 /\ spans exk_rect exk_l1 /\
  Forall real_geolevel (@exk_gls RX num_real) /\ Forall plain_box (@exk_gls RX num_real) /\ Forall real_measurement (@exk_log RX num_real) /\
  Forall (maps_only (cf_col k) exk_l1) exk_log /\ Forall no_gnss (@exk_log RX num_real) /\
  (forall n, (n0 <= n)%nat -> navigate_all (mkEnv n (fun _ _ => (f0, f0, f0))) k (client0 (@ex_garbage RX num_real 0) (exk_set tri)) [exk_log] = Ok (c, [os])) /\
  Forall (fun o => o_status o = OK -> fix_in exk_l1 exk_rect o) os /\
  (tri = false -> Forall (fun o => o_status o = OK -> at_corner exk_gls o) os).
Proof.
  destruct (exk_built tri) as (k & B & Hc).
  assert (N : NoDup (map (@gl_id RX) (@exk_gls RX num_real)) /\ ~ In "" (map (@gl_id RX) (@exk_gls RX num_real))).
  { cbn. split; [repeat constructor; cbn; intuition discriminate|intuition discriminate]. }
  destruct N as [N1 N2].
  assert (Hin : In exk_l1 (col_levels (cf_col k))) by (rewrite Hc; left; reflexivity).
  assert (P1 : (0 < ex_x)%R) by (unfold ex_x; lra). assert (P2 : (0 < ex_y)%R) by (unfold ex_y; lra).
  assert (Hm : on_map exk_l1 exk_rect).
  { exists 0%R, 0%R, (50 * ex_x)%R, (50 * ex_y)%R. split; [apply exk_box|]. cbn. lra. }
  assert (H0 : in_rect exk_rect 0 0) by (unfold in_rect; cbn; lra).
  assert (Hs : spans exk_rect exk_l1).
  { intros r Hr. apply (in_map (fun r => (rp_id r, rp_pt r, map fst (rp_fp r)))) in Hr. rewrite exk_rps1 in Hr.
    destruct Hr as [E|[E|[E|[E|[]]]]]; injection E as _ E _; rewrite <- E; eexists _, _; (split; [reflexivity|]); (split; [reflexivity|]);
      unfold in_rect; cbn; lra. }
  assert (Hbx : forall i txs rps, geo_box (gl_box (@ex_gl RX num_real i txs rps)) 0 0 50 50).
  { intros. split; [repeat split; reflexivity|]. rewrite Rabs_left by lra. lra. }
  assert (Hg : Forall real_geolevel (@exk_gls RX num_real)).
  { apply Forall_cons; [|apply Forall_cons; [|apply Forall_nil]]; constructor.
    1, 4: exists 0%R, 0%R, 50%R, 50%R; split; [apply Hbx|lra].
    - intros t [<-|[<-|[<-|[]]]]; split; eexists; reflexivity.
    - intros r [<-|[<-|[<-|[<-|[]]]]]; (split; [eexists; reflexivity|]); (split; [eexists; reflexivity|]); intros i ss Hi;
        destruct Hi as [Hi|[Hi|[Hi|[]]]]; injection Hi as _ <-; eexists; reflexivity.
    - intros t [<-|[]]; split; eexists; reflexivity.
    - intros r [<-|[]]; (split; [eexists; reflexivity|]); (split; [eexists; reflexivity|]); intros i ss Hi;
        destruct Hi as [Hi|[]]; injection Hi as _ <-; eexists; reflexivity. }
  assert (Hpb : Forall plain_box (@exk_gls RX num_real)).
  { apply Forall_cons; [|apply Forall_cons; [|apply Forall_nil]]; exists 0%R, 0%R, 50%R, 50%R; (split; [apply Hbx|lra]). }
  assert (Hrm : Forall real_measurement (@exk_log RX num_real)).
  { repeat (apply Forall_cons; [try (split; eexists; reflexivity); cbn; try discriminate|]); apply Forall_nil. }
  assert (Hmo : Forall (maps_only (cf_col k) exk_l1) exk_log).
  { assert (G : forall id v ts, id <> "d" -> maps_only (cf_col k) exk_l1 (@ex_mr RX num_real id v ts)).
    { intros id v ts Hid l Hl (r & Hr & Hi). rewrite Hc in Hl. destruct Hl as [<-|[<-|[]]]; [reflexivity|]. exfalso.
      apply (in_map (fun r => (rp_id r, rp_pt r, map fst (rp_fp r)))) in Hr. rewrite exk_rps2 in Hr. destruct Hr as [E|[]].
      injection E as _ _ E. rewrite <- E in Hi. destruct Hi as [Hi|[]]. apply Hid. symmetry. exact Hi. }
    repeat (apply Forall_cons; [try (apply G; discriminate); cbn; try discriminate|]); apply Forall_nil. }
  assert (Hng : Forall no_gnss (@exk_log RX num_real)).
  { repeat (apply Forall_cons; [cbn; try discriminate; exact I|]); apply Forall_nil. }
  destruct (@C86_total isorter (fun _ _ => (f0, f0, f0)) (exk_set tri) exk_gls k (@ex_garbage RX num_real 0) [exk_log] B N1 N2) as ([c os] & n0 & Hn).
  - split; [discriminate|]. split; [discriminate|reflexivity].
  - discriminate.
  - assert (Hn0 := Hn n0 (le_n n0)). assert (Hloc : s_type (st_data (g_sensor (@ex_garbage RX num_real 0))) <> LOCATION) by discriminate.
    assert (A1 := @C100_map isorter _ (exk_set tri) exk_gls k exk_l1 exk_rect (@ex_garbage RX num_real 0) [exk_log] c os B N1 N2 Hin Hm H0 eq_refl eq_refl
      (or_introl (conj eq_refl eq_refl)) (fun _ => conj Hg (conj Hs (Forall_cons _ Hrm (Forall_nil _)))) Hloc (Forall_cons _ Hmo (Forall_nil _)) Hn0).
    assert (A2 : tri = false -> Forall (Forall (fun o => o_status o = OK -> at_corner exk_gls o)) os).
    { intros E. exact (@C100_corner isorter _ (exk_set tri) exk_gls k (@ex_garbage RX num_real 0) [exk_log] c os B N1 N2 Hpb eq_refl E eq_refl Hloc (Forall_cons _ Hng (Forall_nil _)) Hn0). }
    cbn [navigate_all] in Hn0. inv_bind Hn0. destruct a as [c1 o1]. injection Hb as <- <-.
    exists k, c1, o1, n0. apply Forall_inv in A1. do 11 (split; [assumption|]). split; [exact A1|]. intros E. apply A2 in E. apply Forall_inv in E. exact E.
Qed.
