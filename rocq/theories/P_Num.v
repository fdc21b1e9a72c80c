(** C88, C90: the coordinates and radius of every fix are numbers, and lie on the map. *)
From Coq Require Import Reals Lra Lia Sorted.
From Verif Require Import Lib NumReal LibR NumFloat SortInst Client Spec_Preproc Spec_Client Spec_Knn Spec_Post Spec_UB Spec_Geo Spec_Place Spec_Num
  Pf_Client Pf_ClientThrow Pf_Post Pf_ClientUB Pf_Geo Pf_Place Pf_Num Ex P_Client P_UB P_Place.
Local Open Scope string_scope.
Local Open Scope list_scope.
#[local] Existing Instance nf.
#[local] Existing Instance isorter.

(** ** C88: on a map, settings and a log whose numbers are numbers, every fix is one *)
Theorem C88_numbers {SO : Sorter} (e : env RX) (s : settings RX) (gs : list (geolevel RX)) (k : config RX) (g : garbage RX)
    (bs : list (list (measurement RX))) (c : client RX) (os : list (list (noutput RX))) :
  built s gs k -> NoDup (map (@gl_id RX) gs) -> ~ In "" (map (@gl_id RX) gs) ->
  Forall real_geolevel gs -> real_tuning s -> real_sensor (st_data (g_sensor g)) ->
  Forall (Forall real_measurement) bs -> s_fusegps s = false \/ time_sorted (List.concat bs) ->
  navigate_all e k (client0 g s) bs = Ok (c, os) ->
  Forall (Forall (fun o => o_status o = OK -> real_fix o)) os.
Proof.
  intros B N1 N2 Hg Hs Hr Hb Ht H. destruct (built_sound B N1 N2) as [S Es].
  assert (Z := built_zones B Hs). rewrite <- Es in *.
  assert (G := @history_real SO k S (built_levels_real B Hg) Hs Z (fun _ => True) (fun _ _ => I) (fun _ _ _ _ _ _ _ _ _ _ _ _ => I) (or_intror (fun _ => I)) e g bs c os Hr Hb Ht H).
  eapply Forall_impl; [|exact G]. intros os1 G1. eapply Forall_impl; [|exact G1]. intros o Ho Hk. apply (Ho Hk).
Qed.
Print Assumptions C88_numbers.

(** the client of C87's example meets every hypothesis and reports a fix *)
Example C88_example : exists k c os n, built ex_zr ex_gr k /\ NoDup (map (@gl_id RX) ex_gr) /\ ~ In "" (map (@gl_id RX) ex_gr) /\
  Forall real_geolevel ex_gr /\ real_tuning ex_zr /\ Forall (Forall real_measurement) [ex_heard] /\ time_sorted ex_heard /\
  navigate_all (mkEnv n (fun _ _ => (f0, f0, f0))) k (client0 (@ex_garbage RX num_real 0) ex_zr) [ex_heard] = Ok (c, [os]) /\
  Exists (fun o => o_status o = OK /\ real_fix o) os.
Proof.
  destruct C87_example as (k & c & os & n0 & B & _ & _ & _ & _ & Ht & Hn & Hx).
  assert (N : NoDup (map (@gl_id RX) ex_gr) /\ ~ In "" (map (@gl_id RX) ex_gr)).
  { cbn. split; [repeat constructor; cbn; intuition discriminate|intuition discriminate]. }
  destruct N as [N1 N2].
  assert (Hg : Forall real_geolevel ex_gr).
  { assert (G : forall id txs, (forall t, In t txs -> defined (gt_lat t) /\ defined (gt_lon t)) -> real_geolevel (@ex_gl RX num_real id txs [])).
    { intros id txs Hx'. constructor; [|exact Hx'|intros r []]. exists 0%R, 0%R, 50%R, 50%R.
      split; [split; [repeat split|]|]; try lra. split; [lra|]. split; [lra|]. unfold Rabs; destruct (Rcase_abs _); lra. }
    constructor; [|constructor; [|constructor]]; apply G; cbn [In]; intros t Hi;
      repeat (destruct Hi as [<-|Hi]; [split; eexists; reflexivity|]); destruct Hi. }
  assert (Hs : real_tuning ex_zr).
  { constructor.
    - exists 1%R, 50%R, 20%R, 10%R. constructor; try reflexivity; lra.
    - exists 5%R. split; [reflexivity|lra].
    - intros i A Q Hi. cbn in Hi. destruct Hi as [Hi|[Hi|[]]]; injection Hi as <- <- <-; (split; [eexists; reflexivity|]); exists 2%R; (split; [reflexivity|lra]). }
  assert (Hm : Forall (Forall real_measurement) [ex_heard]).
  { constructor; [|constructor]. repeat constructor; cbn; try (eexists; reflexivity); intros Q; discriminate. }
  exists k, c, os, n0. do 7 (split; [assumption|]). split; [apply Hn; constructor|].
  assert (G := @C88_numbers isorter _ ex_zr ex_gr k (@ex_garbage RX num_real 0) [ex_heard] c [os] B N1 N2 Hg Hs ltac:(cbn; discriminate) Hm (or_introl eq_refl) (Hn n0 (le_n n0))).
  inversion G as [|? ? G1 _]; subst. apply Exists_exists in Hx. destruct Hx as (o & Hi & Ho & _). apply Exists_exists. exists o.
  split; [exact Hi|]. split; [exact Ho|]. rewrite Forall_forall in G1. exact (G1 o Hi Ho).
Qed.

(** with fusion on, a call that starts earlier than the last one ended drives
    the deviations to opposite values: a fix whose latitude is not a number,
    though every number of the log is finite *)
Definition ex_fuse : settings SF := ex_post (mkOpts false false true false false true false (fofZ 10))
  (ex_settings_lv [("L1", (fofZ (-60), fofZ 2))] false true ZONES false 1%nat true false false).
Definition ex_gnss (ts : Z) : measurement SF :=
  mkSt (MSensor (mkSensor LOCATION (mkV (lit 100 1000000) (lit 130 1000000) (fofZ 5)))) ts.
Definition finite_measurement (m : measurement SF) : Prop := match st_data m with
  | MRadio r => fisfinite (r_rssi r) = true /\ fisfinite (r_power r) = true
  | MSensor d => fisfinite (vx (s_val d)) = true /\ fisfinite (vy (s_val d)) = true /\ fisfinite (vz (s_val d)) = true
  | MNmea _ => True
  end.
Theorem C88_time_back_refuted : exists (s : settings SF) gs k g bs c os o,
  built s gs k /\ NoDup (map (@gl_id SF) gs) /\ ~ In "" (map (@gl_id SF) gs) /\
  Forall (Forall finite_measurement) bs /\ Forall time_sorted bs /\ s_fusegps s = true /\
  navigate_all ex_env k (client0 g s) bs = Ok (c, os) /\ In o (List.concat os) /\ o_status o = OK /\ fisnan (o_lat o) = true.
Proof.
  destruct (ex_config ex_fuse ex_line) as [k| | |] eqn:E; [|vm_compute in E; discriminate..].
  assert (B := ex_built _ _ _ E). vm_compute in E. injection E as E.
  set (bs := [[ex_mr "a" (-50) 100000; ex_mr "a" (-50) 102000]; [ex_gnss 103000]; [ex_gnss 18500]]).
  destruct (navigate_all ex_env k (client0 (ex_garbage 0) ex_fuse) bs) as [[c os]| | |] eqn:R;
    [|rewrite <- E in R; vm_compute in R; discriminate..].
  rewrite <- E in R. vm_compute in R. injection R as Rc Ro.
  eexists ex_fuse, ex_line, k, (ex_garbage 0), bs, c, _, _. split; [exact B|].
  split; [repeat constructor; intros []|]. split; [cbn; intuition discriminate|].
  split; [repeat constructor|]. split; [unfold time_sorted; repeat constructor; cbn; lia|]. split; [reflexivity|].
  split; [rewrite <- E; vm_compute; rewrite Rc; reflexivity|]. split; [do 3 right; left; reflexivity|].
  split; reflexivity.
Qed.
Print Assumptions C88_time_back_refuted.

(** ** C90: with one bounding box for every level, every fix lies in it *)
Theorem C90_on_map {SO : Sorter} (e : env RX) (s : settings RX) (gs : list (geolevel RX)) (k : config RX) (g : garbage RX)
    (bs : list (list (measurement RX))) (c : client RX) (os : list (list (noutput RX))) (la1 lo1 la2 lo2 : R) :
  built s gs k -> NoDup (map (@gl_id RX) gs) -> ~ In "" (map (@gl_id RX) gs) ->
  Forall real_geolevel gs -> real_tuning s -> real_sensor (st_data (g_sensor g)) ->
  Forall (Forall real_measurement) bs -> s_fusegps s = false \/ time_sorted (List.concat bs) ->
  same_box gs la1 lo1 la2 lo2 -> s_gpsoutside s = false ->
  navigate_all e k (client0 g s) bs = Ok (c, os) ->
  Forall (Forall (fun o => o_status o = OK -> on_the_map la1 lo1 la2 lo2 o)) os.
Proof. exact (@map_history SO e s gs k g bs c os la1 lo1 la2 lo2). Qed.
Print Assumptions C90_on_map.

Example C90_example : exists k c os n, same_box ex_gr 0 0 50 50 /\ s_gpsoutside ex_zr = false /\ built ex_zr ex_gr k /\
  Forall real_geolevel ex_gr /\ real_tuning ex_zr /\ Forall (Forall real_measurement) [ex_heard] /\
  navigate_all (mkEnv n (fun _ _ => (f0, f0, f0))) k (client0 (@ex_garbage RX num_real 0) ex_zr) [ex_heard] = Ok (c, [os]) /\
  Exists (fun o => o_status o = OK /\ on_the_map 0 0 50 50 o) os.
Proof.
  destruct C88_example as (k & c & os & n & B & N1 & N2 & Hg & Hs & Hm & _ & Hn & Hx).
  assert (Hb : same_box ex_gr 0 0 50 50).
  { split; [intros g [<-|[<-|[]]]; repeat split; reflexivity|]. do 4 (split; [lra|]). unfold Rabs. destruct (Rcase_abs _); lra. }
  exists k, c, os, n. do 7 (split; [first [assumption|reflexivity]|]).
  assert (G := @C90_on_map isorter _ ex_zr ex_gr k (@ex_garbage RX num_real 0) [ex_heard] c [os] _ _ _ _ B N1 N2 Hg Hs ltac:(cbn; discriminate) Hm (or_introl eq_refl) Hb eq_refl Hn).
  inversion G as [|? ? G1 _]; subst. apply Exists_exists in Hx. destruct Hx as (o & Hi & Ho & _). apply Exists_exists. exists o.
  split; [exact Hi|]. split; [exact Ho|]. rewrite Forall_forall in G1. exact (G1 o Hi Ho).
Qed.

Definition ex_deg (n : Z) : SF := lit n 1000000.
Definition ex_lv (id : string) (txs : list (gtransmitter SF)) (a b : Z) : geolevel SF :=
  mkGeoLevel id txs [] (mkBox (mkXY (ex_deg a) (ex_deg a)) (mkXY (ex_deg b) (ex_deg b))) (fun _ _ => true) (mkGraph [] []) (fofZ 0).
Definition ex_XY (fuse smooth : bool) : settings SF := ex_post (mkOpts false smooth true false false fuse false (fofZ 10))
  (ex_settings_lv [("X", (fofZ (-60), fofZ 2)); ("Y", (fofZ (-60), fofZ 2))] false false ZONES false 1%nat true false smooth).
Definition ex_gn (la lo ts : Z) : measurement SF :=
  mkSt (MSensor (mkSensor LOCATION (mkV (ex_deg la) (ex_deg lo) (fofZ 5)))) ts.

(** two overlapping levels whose boxes start at different corners: the only
    transmitter heard and the receiver's own position agree on a place, both
    levels contain it, and the fused fix is shown five metres off along each axis *)
Definition ex_frames : list (geolevel SF) := [ex_lv "X" [] 0 1000; ex_lv "Y" [ex_at "a" 500 500] 100 1000].
Theorem C90_frames_refuted : exists (s : settings SF) gs k g bs c os o,
  built s gs k /\ NoDup (map (@gl_id SF) gs) /\ ~ In "" (map (@gl_id SF) gs) /\ s_gpsoutside s = false /\
  Forall (Forall finite_measurement) bs /\ time_sorted (List.concat bs) /\
  (forall l t, In l gs -> In t (gl_txs l) -> gt_lat t = ex_deg 500 /\ gt_lon t = ex_deg 500) /\
  (forall m d, In m (List.concat bs) -> st_data m = MSensor d -> s_type d = LOCATION /\ vx (s_val d) = ex_deg 500 /\ vy (s_val d) = ex_deg 500) /\
  navigate_all ex_env k (client0 g s) bs = Ok (c, os) /\ In o (List.concat os) /\ o_status o = OK /\
  (ex_deg 550 <! o_lat o) = true /\ (ex_deg 550 <! o_lon o) = true.
Proof.
  destruct (ex_config (ex_XY true false) ex_frames) as [k| | |] eqn:E; [|vm_compute in E; discriminate..].
  assert (B := ex_built _ _ _ E). vm_compute in E. injection E as E.
  set (bs := [[ex_mr "a" (-50) 100000; ex_mr "a" (-50) 102000; ex_gn 500 500 102500; ex_mr "a" (-50) 103000; ex_mr "a" (-50) 104000; ex_gn 500 500 104500]]).
  destruct (navigate_all ex_env k (client0 (ex_garbage 0) (ex_XY true false)) bs) as [[c os]| | |] eqn:R;
    [|rewrite <- E in R; vm_compute in R; discriminate..].
  rewrite <- E in R. vm_compute in R. injection R as Rc Ro.
  eexists (ex_XY true false), ex_frames, k, (ex_garbage 0), bs, c, _, _. split; [exact B|].
  split; [repeat constructor; cbn; intuition discriminate|]. split; [cbn; intuition discriminate|]. split; [reflexivity|].
  split; [repeat constructor|]. split; [unfold time_sorted; repeat constructor; cbn; lia|].
  split; [intros l t [<-|[<-|[]]] Ht; cbn in Ht; [destruct Ht|destruct Ht as [<-|[]]; split; reflexivity]|].
  split; [intros m d Hm Hd; cbn in Hm; repeat (destruct Hm as [<-|Hm]; [cbn in Hd; try discriminate; injection Hd as <-; repeat split; reflexivity|]); destruct Hm|].
  split; [rewrite <- E; vm_compute; rewrite Rc; reflexivity|]. split; [do 5 right; left; reflexivity|].
  split; [reflexivity|]. split; vm_compute; reflexivity.
Qed.
Print Assumptions C90_frames_refuted.

(** boxes with a common corner but of different size: the fix is clamped to the
    box of the level the radio signals tell, not to that of the level it is
    shown on, and the alpha-beta filter carries it out of the latter *)
Definition ex_sizes : list (geolevel SF) := [ex_lv "X" [] 0 300; ex_lv "Y" [ex_at "a" 500 500] 0 1000].
Theorem C90_levels_refuted : exists (s : settings SF) gs k g bs c os o l,
  built s gs k /\ NoDup (map (@gl_id SF) gs) /\ ~ In "" (map (@gl_id SF) gs) /\ s_gpsoutside s = false /\
  Forall (Forall finite_measurement) bs /\ time_sorted (List.concat bs) /\
  (forall l1, In l1 gs -> bmin (gl_box l1) = mkXY (ex_deg 0) (ex_deg 0)) /\
  navigate_all ex_env k (client0 g s) bs = Ok (c, os) /\ In o (List.concat os) /\ o_status o = OK /\
  In l gs /\ gl_id l = o_level o /\ bmax (gl_box l) = mkXY (ex_deg 300) (ex_deg 300) /\ (ex_deg 310 <! o_lon o) = true.
Proof.
  destruct (ex_config (ex_XY false true) ex_sizes) as [k| | |] eqn:E; [|vm_compute in E; discriminate..].
  assert (B := ex_built _ _ _ E). vm_compute in E. injection E as E.
  set (bs := [[ex_mr "a" (-50) 100000; ex_mr "a" (-50) 102000; ex_gn 100 170 108500; ex_gn 100 200 109500; ex_gn 100 230 110500;
    ex_gn 100 260 111500; ex_gn 100 290 112500; ex_gn 100 298 113500; ex_gn 100 299 114500; ex_gn 100 299 115500]]).
  destruct (navigate_all ex_env k (client0 (ex_garbage 0) (ex_XY false true)) bs) as [[c os]| | |] eqn:R;
    [|rewrite <- E in R; vm_compute in R; discriminate..].
  rewrite <- E in R. vm_compute in R. injection R as Rc Ro.
  eexists (ex_XY false true), ex_sizes, k, (ex_garbage 0), bs, c, _, _, (ex_lv "X" [] 0 300). split; [exact B|].
  split; [repeat constructor; cbn; intuition discriminate|]. split; [cbn; intuition discriminate|]. split; [reflexivity|].
  split; [repeat constructor|]. split; [unfold time_sorted; repeat constructor; cbn; lia|].
  split; [intros l1 [<-|[<-|[]]]; reflexivity|].
  split; [rewrite <- E; vm_compute; rewrite Rc; reflexivity|]. split; [do 9 right; left; reflexivity|].
  split; [reflexivity|]. split; [left; reflexivity|]. split; [reflexivity|]. split; [reflexivity|]. vm_compute; reflexivity.
Qed.
Print Assumptions C90_levels_refuted.
