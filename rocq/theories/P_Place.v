(** C87: without GNSS, fixes lie among the transmitters heard. *)
From Coq Require Import Reals Lra Lia Sorted.
From Verif Require Import Lib NumReal LibR NumFloat SortInst Client Spec_Preproc Spec_Client Spec_Post Spec_UB Spec_Geo Spec_Place
  Pf_Client Pf_ClientThrow Pf_Post Pf_ClientUB Pf_Geo Pf_Place Ex P_Client P_UB.
Local Open Scope string_scope.
Local Open Scope list_scope.
#[local] Existing Instance nf.
#[local] Existing Instance isorter.

(** a zone client that hears only transmitters of one level inside a rectangle
    of its map and no GNSS: every fix lies in the rectangle, corners rounded
    down to centimetres.  Any rectangle without the smoothers, a single point
    with whichever of them *)
Theorem C87_heard {SO : Sorter} (e : env RX) (k : config RX) (l : level RX) (r : rect) (g : garbage RX)
    (bs : list (list (measurement RX))) (c : client RX) (os : list (list (noutput RX))) :
  wf_collector (cf_col k) -> has_level (cf_col k) "" = false -> In l (col_levels (cf_col k)) -> on_map l r ->
  s_algo (cf_set k) <> KNN -> s_radiomap (cf_set k) = false -> s_graphproj (cf_set k) = false ->
  (s_usesmooth (cf_set k) = false /\ s_timesmooth (cf_set k) = false) \/ one_spot r ->
  s_type (st_data (g_sensor g)) <> LOCATION -> Forall (Forall (hears_only (cf_col k) l r)) bs ->
  navigate_all e k (client0 g (cf_set k)) bs = Ok (c, os) ->
  Forall (Forall (fun o => o_status o = OK -> fix_in l r o)) os.
Proof. exact (@place SO e k l r g bs c os). Qed.
Print Assumptions C87_heard.

(** one transmitter heard: every fix is its place, to the centimetre below *)
Theorem C87_one_transmitter {SO : Sorter} (e : env RX) (s : settings RX) (gs : list (geolevel RX)) (k : config RX) (l : level RX)
    (x y : R) (g : garbage RX) (bs : list (list (measurement RX))) (c : client RX) (os : list (list (noutput RX))) :
  built s gs k -> NoDup (map (@gl_id RX) gs) -> ~ In "" (map (@gl_id RX) gs) -> In l (col_levels (cf_col k)) -> on_map l (spot x y) ->
  s_algo s <> KNN -> s_radiomap s = false -> s_graphproj s = false ->
  s_type (st_data (g_sensor g)) <> LOCATION -> Forall (Forall (hears_only (cf_col k) l (spot x y))) bs ->
  navigate_all e k (client0 g s) bs = Ok (c, os) ->
  exists x' y', centimetres x' /\ centimetres y' /\ (x' <= x < x' + 1 / 100)%R /\ (y' <= y < y' + 1 / 100)%R /\
  Forall (Forall (fun o => o_status o = OK -> o_level o = l_id l /\
    mkGeo (o_lat o) (o_lon o) = local_to_gps (mkXY (Some x') (Some y')) (l_bind l))) os.
Proof.
  intros B N1 N2 Hl Hm A1 A2 A3 Hg Hb H. destruct (built_sound B N1 N2) as [[] Es]. rewrite <- Es in *.
  exists (cm x), (cm y). split; [eexists; reflexivity|]. split; [eexists; reflexivity|].
  split; [apply cm_bounds|]. split; [apply cm_bounds|].
  assert (G : Forall (Forall (fun o => o_status o = OK -> fix_in l (spot x y) o)) os).
  { eapply place; try eassumption. right. split; reflexivity. }
  eapply Forall_impl; [|exact G]. intros o1 F1. eapply Forall_impl; [|exact F1]. intros o Ho Hs.
  destruct (Ho Hs) as (E1 & x1 & y1 & E2 & E3 & E4). cbn in E3, E4.
  replace (cm x) with x1 by lra. replace (cm y) with y1 by lra. auto.
Qed.
Print Assumptions C87_one_transmitter.

(** with plain settings a fix comes: a batch that starts with a signal, not
    before anything received so far, and ends with a signal that is at least the
    window later -- or is that one signal, if the window is empty -- has a fix in it *)
Theorem C87_fix {SO : Sorter} (e : env RX) (s : settings RX) (gs : list (geolevel RX)) (k : config RX) (l : level RX) (r : rect)
    (g : garbage RX) (bs : list (list (measurement RX))) (c : client RX) (os : list (list (noutput RX)))
    (ma : measurement RX) (ms : list (measurement RX)) (c' : client RX) (os' : list (noutput RX)) :
  built s gs k -> NoDup (map (@gl_id RX) gs) -> ~ In "" (map (@gl_id RX) gs) -> In l (col_levels (cf_col k)) -> on_map l r ->
  s_algo s <> KNN -> s_radiomap s = false -> s_graphproj s = false ->
  (s_usesmooth s = false /\ s_timesmooth s = false) \/ one_spot r -> plain s ->
  (0 < pc_dead (cf_post k))%Z -> s_type (st_data (g_sensor g)) <> LOCATION ->
  Forall (Forall (fun m => hears_only (cf_col k) l r m /\ (st_ts m <= st_ts ma)%Z)) bs ->
  navigate_all e k (client0 g s) bs = Ok (c, os) ->
  time_sorted (ma :: ms) -> (0 < st_ts ma)%Z -> Forall (hears_only (cf_col k) l r) (ma :: ms) -> signal s (cf_col k) ma ->
  (ms = [] /\ (bc_shift (cf_buf k) <= 0)%Z \/
   exists t mz, ms = t ++ [mz] /\ signal s (cf_col k) mz /\ (st_ts ma + bc_shift (cf_buf k) <= st_ts mz)%Z) ->
  navigate e k c (ma :: ms) = Ok (c', os') ->
  Exists (fun o => o_status o = OK /\ fix_in l r o) os'.
Proof. exact (@place_fix SO e s gs k l r g bs c os ma ms c' os'). Qed.
Print Assumptions C87_fix.

(** the default settings for zones on a map with three transmitters, over the reals *)
Definition ex_zr : settings RX := @ex_zones RX num_real false.
Definition ex_gr : list (geolevel RX) := @ex_gls RX num_real.
Definition ex_lr : level RX := match @local_level RX num_real (nth 0 ex_gr (@ex_gl RX num_real "" [] [])) with Ok l => l | _ => @ex_L1 RX num_real end.
Definition ex_lr2 : level RX := match @local_level RX num_real (nth 1 ex_gr (@ex_gl RX num_real "" [] [])) with Ok l => l | _ => @ex_L1 RX num_real end.
Lemma to_ms_real z : (0 <= z < 2 ^ 50)%Z -> @to_ms RX num_real (fofZ z) = Ok (1000 * z)%Z.
Proof.
  intros Hz. unfold to_ms. rewrite !rx_ofZ, rx_mul, <- mult_IZR. cbn [ftoZ num_real]. unfold rtoZ, Rtrunc.
  assert (A : Int_part (IZR (1000 * z)) = (1000 * z)%Z).
  { destruct (base_Int_part (IZR (1000 * z))) as [A B]. apply le_IZR in A. assert (IZR (1000 * z) < IZR (Int_part (IZR (1000 * z)) + 1))%R by (rewrite plus_IZR; lra).
    apply lt_IZR in H. lia. }
  destruct (Rltb _ 0) eqn:E; [apply Rltb_true in E; apply (lt_IZR _ 0) in E; lia|]. rewrite A.
  destruct (Z.leb_spec (- 2 ^ 63) (1000 * z)); [|lia]. destruct (Z.ltb_spec (1000 * z) (2 ^ 63)); [reflexivity|lia].
Qed.
Lemma ex_zr_built : exists k, built ex_zr ex_gr k /\ col_levels (cf_col k) = [ex_lr; ex_lr2] /\
  bc_shift (cf_buf k) = 1000%Z /\ pc_dead (cf_post k) = 5000%Z.
Proof.
  assert (Hb : @buffer_config RX num_real ex_zr = Ok (mkBufcfg 0 1000 3000 false)).
  { unfold buffer_config. change (s_avg ex_zr) with (@fofZ RX num_real 1). change (s_shift ex_zr) with (@fofZ RX num_real 0).
    change (s_stopdetect ex_zr) with (@fofZ RX num_real 3). rewrite !to_ms_real by lia. reflexivity. }
  assert (Hp : @post_config RX num_real ex_zr = Ok (mkPostc 5000 4000 3000)).
  { unfold post_config. change (s_deadreck ex_zr) with (@fofZ RX num_real 5). change (s_stopupdate ex_zr) with (@fofZ RX num_real 4).
    change (s_stopdetect ex_zr) with (@fofZ RX num_real 3). rewrite !to_ms_real by lia. reflexivity. }
  eexists. split; [|split; [|split]].
  - exists (mkCol [ex_lr; ex_lr2] [("L1", 0%nat); ("L2", 1%nat)]). split; [reflexivity|].
    unfold mk_config. rewrite Hb, Hp. reflexivity.
  - reflexivity.
  - reflexivity.
  - reflexivity.
Qed.
Lemma ex_lr_bind : get_binding (nth 0 ex_gr (@ex_gl RX num_real "" [] [])) = rx_geo (0, 0)%R.
Proof.
  unfold get_binding, correct_box, ex_gr, ex_gls, ex_gl. cbn [nth gl_box bmin bmax px py]. rewrite !rx_ofZ, !rx_ltb.
  assert (E : Rltb 50 0 = false) by (apply Rltb_false; lra). rewrite E. reflexivity.
Qed.
Lemma circ0 : circ_at (0, 0)%R = 40075160%R.
Proof. unfold circ_at. cbn [fst]. replace (0 * PI / 180)%R with 0%R by lra. rewrite cos_0. lra. Qed.
Definition ex_x : R := (40075160 / 360)%R.
Definition ex_y : R := (40008000 / 360)%R.
Lemma ex_gps a b : (0 <= a <= 50)%Z -> (0 <= b <= 50)%Z ->
  gps_to_local (mkGeo (@fofZ RX num_real a) (@fofZ RX num_real b)) (rx_geo (0, 0)%R) = rx_pt (IZR b * ex_x, IZR a * ex_y)%R.
Proof.
  intros Ha Hb. change (mkGeo (@fofZ RX num_real a) (@fofZ RX num_real b)) with (rx_geo (IZR a, IZR b)).
  rewrite gps_to_local_real, circ0. cbn [fst snd]. unfold rnorm. assert (A : (0 <= IZR b <= 50)%R) by (split; apply IZR_le; lia).
  assert (E1 : Rltb 180 (IZR b - 0) = false) by (apply Rltb_false; lra). assert (E2 : Rleb (IZR b - 0) (-180) = false) by (apply Rleb_false; lra).
  rewrite E1, E2. unfold ex_x, ex_y. do 2 f_equal; lra.
Qed.
Definition ex_ltx (id : string) (x y : Z) : transmitter RX := local_tx (rx_geo (0, 0)%R) (@fofZ RX num_real 0) (@ex_gtx RX num_real id x y).
Lemma ex_lr_txs : l_txs ex_lr = [("a", ex_ltx "a" 1 1); ("b", ex_ltx "b" 10 1)] /\ l_txs ex_lr2 = [("c", ex_ltx "c" 1 1)].
Proof.
  unfold ex_ltx. rewrite <- ex_lr_bind. split; reflexivity.
Qed.
Lemma ex_lr_box : real_box (l_box ex_lr) 0 0 (50 * ex_x) (50 * ex_y).
Proof.
  assert (E : l_box ex_lr = correct_box (local_box (rx_geo (0, 0)%R) (mkBox (mkXY (@fofZ RX num_real 0) (@fofZ RX num_real 0)) (mkXY (@fofZ RX num_real 50) (@fofZ RX num_real 50)))))
    by (rewrite <- ex_lr_bind; reflexivity).
  rewrite E. unfold local_box. cbn [bmin bmax px py]. rewrite !ex_gps by lia. unfold correct_box. cbn [bmin bmax px py rx_pt fst snd]. rewrite !rx_ltb.
  assert (E1 : Rltb (50 * ex_x) (0 * ex_x) = false) by (apply Rltb_false; unfold ex_x; lra).
  assert (E2 : Rltb (50 * ex_y) (0 * ex_y) = false) by (apply Rltb_false; unfold ex_y; lra). rewrite E1, E2.
  unfold real_box. cbn [bmin bmax px py]. rewrite !Rmult_0_l. auto.
Qed.
Definition ex_heard : list (measurement RX) :=
  [@ex_mr RX num_real "a" (-50) 1000; @ex_msn RX num_real ACCELEROMETER 0 0 9 1500; @ex_mr RX num_real "x" (-40) 1800; @ex_mr RX num_real "a" (-60) 2100].
Lemma ex_signal k id rssi ts : cf_set k = ex_zr -> col_levels (cf_col k) = [ex_lr; ex_lr2] -> (-100 < rssi < 0)%Z -> id = "a" ->
  signal ex_zr (cf_col k) (@ex_mr RX num_real id rssi ts).
Proof.
  intros Hs Hc Hr ->. destruct ex_lr_txs as [E _]. eexists. split; [reflexivity|]. split; [discriminate|]. split.
  - right. exists [], ex_lr, [ex_lr2], (ex_ltx "a" 1 1). rewrite Hc, E. split; [reflexivity|]. split; [constructor|]. split; [reflexivity|]. split; discriminate.
  - cbn [s_mtype ex_zr ex_zones ex_zones_og ex_settings_lv s_cutoff r_rssi ex_radio]. rewrite rx_f0, !rx_ofZ, !rx_ltb. split; apply Rltb_true; apply IZR_lt; lia.
Qed.
(** ... every hypothesis of [C87_fix] and [C87_one_transmitter] holds, and there is a fix *)
Example C87_example : exists k c os n0, built ex_zr ex_gr k /\
  In ex_lr (col_levels (cf_col k)) /\ on_map ex_lr (spot ex_x ex_y) /\ plain ex_zr /\
  Forall (hears_only (cf_col k) ex_lr (spot ex_x ex_y)) ex_heard /\ time_sorted ex_heard /\
  (forall n, (n0 <= n)%nat -> navigate_all (mkEnv n (fun _ _ => (f0, f0, f0))) k (client0 (@ex_garbage RX num_real 0) ex_zr) [ex_heard] = Ok (c, [os])) /\
  Exists (fun o => o_status o = OK /\ fix_in ex_lr (spot ex_x ex_y) o) os.
Proof.
  destruct ex_zr_built as (k & B & Hc & Hs & Hd). destruct ex_lr_txs as [E1 E2].
  assert (N : NoDup (map (@gl_id RX) ex_gr) /\ ~ In "" (map (@gl_id RX) ex_gr)).
  { cbn. split; [repeat constructor; cbn; intuition discriminate|intuition discriminate]. }
  destruct N as [N1 N2]. destruct (built_sound B N1 N2) as [Hsd Es].
  assert (Hin : In ex_lr (col_levels (cf_col k))) by (rewrite Hc; left; reflexivity).
  assert (Hm : on_map ex_lr (spot ex_x ex_y)).
  { exists 0%R, 0%R, (50 * ex_x)%R, (50 * ex_y)%R. split; [apply ex_lr_box|]. cbn. unfold ex_x, ex_y. lra. }
  assert (Hp : plain ex_zr).
  { constructor; try reflexivity. exists (-100)%R. split; [reflexivity|lra]. }
  assert (Hr : forall id ts rssi, id = "a" \/ id = "x" -> hears_only (cf_col k) ex_lr (spot ex_x ex_y) (@ex_mr RX num_real id rssi ts)).
  { intros id ts rssi Hid l t Hl Ht. rewrite Hc in Hl. cbn [r_id ex_radio] in Ht. destruct Hl as [<-|[<-|[]]].
    - split; [reflexivity|]. rewrite E1 in Ht. destruct Ht as [Ht|[Ht|[]]]; injection Ht as Hi Ht; [|exfalso; destruct Hid; congruence].
      subst t. unfold ex_ltx, local_tx. cbn [ex_gtx gt_lat gt_lon t_pt zx zy]. rewrite ex_gps by lia. exists (1 * ex_x)%R, (1 * ex_y)%R.
      split; [reflexivity|]. split; [reflexivity|]. unfold in_rect. cbn. lra.
    - exfalso. rewrite E2 in Ht. destruct Ht as [Ht|[]]. injection Ht as Hi Ht. destruct Hid; congruence. }
  assert (Hh : Forall (hears_only (cf_col k) ex_lr (spot ex_x ex_y)) ex_heard).
  { constructor; [apply Hr; auto|]. constructor; [cbn; discriminate|]. constructor; [apply Hr; auto|]. constructor; [apply Hr; auto|constructor]. }
  assert (Ht : time_sorted ex_heard) by (unfold time_sorted; cbn; repeat constructor; lia).
  destruct (@C86_total isorter (fun _ _ => (f0, f0, f0)) ex_zr ex_gr k (@ex_garbage RX num_real 0) [ex_heard] B N1 N2) as ([c os] & n0 & Hn).
  - split; [discriminate|]. split; [discriminate|reflexivity].
  - discriminate.
  - assert (Hn0 := Hn n0 (le_n n0)). cbn [navigate_all] in Hn0. inv_bind Hn0. destruct a as [c1 o1]. injection Hb as <- <-.
    exists k, c1, o1, n0. split; [exact B|]. split; [exact Hin|]. split; [exact Hm|]. split; [exact Hp|]. split; [exact Hh|]. split; [exact Ht|].
    split; [exact Hn|].
    apply (@C87_fix isorter (mkEnv n0 (fun _ _ => (f0, f0, f0))) ex_zr ex_gr k ex_lr (spot ex_x ex_y) (@ex_garbage RX num_real 0) []
      (client0 (@ex_garbage RX num_real 0) ex_zr) [] (hd (@ex_mr RX num_real "a" 0 0) ex_heard) (tl ex_heard) c1 o1 B N1 N2 Hin Hm);
      try discriminate; try reflexivity; try assumption.
    + left. split; reflexivity.
    + rewrite Hd. lia.
    + constructor.
    + apply ex_signal; [exact Es|exact Hc|lia|reflexivity].
    + right. exists [@ex_msn RX num_real ACCELEROMETER 0 0 9 1500; @ex_mr RX num_real "x" (-40) 1800], (@ex_mr RX num_real "a" (-60) 2100).
      split; [reflexivity|]. split; [apply ex_signal; [exact Es|exact Hc|lia|reflexivity]|]. rewrite Hs. cbn. lia.
Qed.

(** a smoother overshoots: with the alpha-beta filter a fix of a walk from one
    transmitter to the next lies outside the transmitters heard *)
Definition ex_smooth : settings SF := ex_settings_lv [("L1", (fofZ (-60), fofZ 2))] false false ZONES false 1%nat false false true.
Definition ex_at (id : string) (y x : Z) : gtransmitter SF :=
  mkGTx id (lit y 1000000) (lit x 1000000) (fofZ 0) (mkPL (fofZ (-60)) (fofZ 2) (fofZ 1)) TBEACON.
Definition ex_line : list (geolevel SF) :=
  [mkGeoLevel "L1" [ex_at "a" 100 100; ex_at "b" 100 130] [] (mkBox (mkXY (fofZ 0) (fofZ 0)) (mkXY (lit 1 1000) (lit 1 1000)))
     (fun _ _ => true) (mkGraph [] []) (fofZ 0)].
Definition ex_walk : list (measurement SF) :=
  map (fun p => ex_mr (fst p) (-50) (snd p))
    [("a", 1000); ("a", 2000); ("a", 3000); ("b", 4000); ("b", 5000); ("b", 6000); ("b", 7000)]%Z.
Theorem C87_smoothing_refuted : exists (s : settings SF) gs k g bs c os o,
  built s gs k /\ NoDup (map (@gl_id SF) gs) /\ ~ In "" (map (@gl_id SF) gs) /\
  s_algo s = ZONES /\ s_radiomap s = false /\ s_graphproj s = false /\ s_gps s = false /\ s_timesmooth s = false /\ s_usesmooth s = true /\
  Forall (Forall (fun m => exists r, st_data m = MRadio r /\ In (r_id r) ["a"; "b"])) bs /\
  navigate_all ex_env k (client0 g s) bs = Ok (c, [os]) /\ In o os /\ o_status o = OK /\
  forall l t, In l gs -> In t (gl_txs l) -> (gt_lon t +! lit 3 1000000 <! o_lon o) = true.
Proof.
  destruct (ex_config ex_smooth ex_line) as [k| | |] eqn:E; [|vm_compute in E; discriminate..].
  assert (B := ex_built _ _ _ E). vm_compute in E. injection E as E.
  destruct (navigate_all ex_env k (client0 (ex_garbage 0) ex_smooth) [ex_walk]) as [[c os]| | |] eqn:R;
    [|rewrite <- E in R; vm_compute in R; discriminate..].
  rewrite <- E in R. vm_compute in R. injection R as Rc Ro.
  eexists ex_smooth, ex_line, k, (ex_garbage 0), [ex_walk], c, _, _. split; [exact B|].
  split; [repeat constructor; intros []|]. split; [cbn; intuition discriminate|]. do 6 (split; [reflexivity|]).
  split; [repeat constructor; eexists; (split; [reflexivity|]); cbn; tauto|].
  split; [rewrite <- E; vm_compute; rewrite Rc; reflexivity|]. split; [do 6 right; left; reflexivity|].
  split; [reflexivity|]. intros l t [<-|[]] [<-|[<-|[]]]; vm_compute; reflexivity.
Qed.
Print Assumptions C87_smoothing_refuted.
