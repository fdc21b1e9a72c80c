(** C89: the radius reported with a fix. *)
From Verif Require Import Lib Num NumFloat SortInst Client Spec_Client Spec_Radius Pf_Client Pf_ClientThrow Pf_Radius Ex P_Client P_Place P_Num.
Local Open Scope string_scope.
Local Open Scope list_scope.
#[local] Existing Instance nf.
#[local] Existing Instance isorter.

(** the radius is that of an indoor estimate; zero or the receiver's own only
    with fixes of GNSS alone *)
Theorem C89_radius {F : Type} {NF : Num F} {SO : Sorter} (e : env F) (s : settings F) (gs : list (geolevel F)) (k : config F)
    (g : garbage F) (bs : list (list (measurement F))) (c : client F) (os : list (list (noutput F))) :
  built s gs k -> s_stops s = false -> s_type (st_data (g_sensor g)) <> LOCATION ->
  navigate_all e k (client0 g s) bs = Ok (c, os) ->
  Forall (Forall (fun o => o_status o = OK -> radius_of s (List.concat bs) o)) os.
Proof. exact (@radius_history F NF SO e s gs k g bs c os). Qed.
Print Assumptions C89_radius.

(** a radio-map client gives every indoor and every fused fix one metre *)
Theorem C89_knn {F : Type} {NF : Num F} {SO : Sorter} (e : env F) (s : settings F) (gs : list (geolevel F)) (k : config F)
    (g : garbage F) (bs : list (list (measurement F))) (c : client F) (os : list (list (noutput F))) :
  built s gs k -> s_stops s = false -> s_type (st_data (g_sensor g)) <> LOCATION -> s_algo s = KNN ->
  navigate_all e k (client0 g s) bs = Ok (c, os) ->
  Forall (Forall (fun o => o_status o = OK -> o_prov o <> Some GNSS -> o_r o = Some f1)) os.
Proof.
  intros B Hs Hg Ha H. apply radius_history with (s := s) (gs := gs) in H; [|assumption..].
  eapply Forall_impl; [|exact H]. intros os1 H1. eapply Forall_impl; [|exact H1]. intros o Ho Hk Hp.
  destruct (Ho Hk) as (r & Hr & [He|[He _]]); [|destruct (Hp He)]. unfold estimated in He. rewrite Ha in He. congruence.
Qed.
Print Assumptions C89_knn.

(** a map with reference points; two transmitters must be heard for an indoor fix *)
Definition ex_few : settings SF := ex_settings_lv [] false false KNN false 2%nat true false false.
Definition ex_rp (id : string) (y x : Z) : grefpoint SF :=
  mkGRP id (mkGeo (lit y 1000000) (lit x 1000000)) [("a", mkSS TBEACON (fofZ (-60)) f1 10%Z); ("b", mkSS TBEACON (fofZ (-70)) f1 10%Z)].
Definition ex_rps : list (geolevel SF) :=
  [mkGeoLevel "L1" [ex_at "a" 100 100; ex_at "b" 100 130] [ex_rp "1" 0 0; ex_rp "2" 0 500; ex_rp "3" 500 0; ex_rp "4" 600 500]
     (mkBox (mkXY (fofZ 0) (fofZ 0)) (mkXY (lit 1 1000) (lit 1 1000)))
     (fun _ _ => true) (mkGraph [] []) (fofZ 0)].
Definition ex_poor (ts : Z) : measurement SF :=
  mkSt (MSensor (mkSensor LOCATION (mkV (lit 300 1000000) (lit 300 1000000) (fofZ 200)))) ts.
Definition ex_radii (r : res (client SF * list (list (noutput SF)))) : res (list (nstatus * option SF * option provider)) :=
  '(_, os) <- r ;; Ok (map (fun o => (o_status o, o_r o, o_prov o)) (List.concat os)).

(** one transmitter heard and GNSS good to 200 m: the fixes are GNSS's, and say 0 m *)
Theorem C89_gnss_refuted : exists (s : settings SF) gs k g bs c os o,
  built s gs k /\ NoDup (map (@gl_id SF) gs) /\ ~ In "" (map (@gl_id SF) gs) /\ s_stops s = false /\
  navigate_all ex_env k (client0 g s) bs = Ok (c, os) /\
  (forall m d, In m (List.concat bs) -> st_data m = MSensor d -> s_type d = LOCATION /\ vz (s_val d) = fofZ 200) /\
  In o (List.concat os) /\ o_status o = OK /\ o_prov o = Some GNSS /\ o_r o = Some f0.
Proof.
  destruct (ex_config ex_few ex_rps) as [k| | |] eqn:E; [|vm_compute in E; discriminate..].
  assert (B := ex_built _ _ _ E). vm_compute in E. injection E as E.
  set (bs := [[ex_mr "a" (-50) 1000; ex_mr "a" (-50) 3000; ex_poor 3500]]).
  destruct (navigate_all ex_env k (client0 (ex_garbage 0) ex_few) bs) as [[c os]| | |] eqn:R;
    [|rewrite <- E in R; vm_compute in R; discriminate..].
  rewrite <- E in R. vm_compute in R. injection R as Rc Ro.
  eexists ex_few, ex_rps, k, (ex_garbage 0), bs, c, _, _. split; [exact B|].
  split; [repeat constructor; intros []|]. split; [cbn; intuition discriminate|]. split; [reflexivity|].
  split; [rewrite <- E; vm_compute; rewrite Rc; reflexivity|].
  split; [intros m d [<-|[<-|[<-|[]]]] Hd; try discriminate; injection Hd as <-; split; reflexivity|].
  split; [do 2 right; left; reflexivity|]. split; [reflexivity|]. split; reflexivity.
Qed.
Print Assumptions C89_gnss_refuted.

(** both transmitters heard: an indoor fix of one metre, from then on also with
    the GNSS fixes; a zone client reports what one signal level gives *)
Example C89_example : exists k k', built ex_few ex_rps k /\ built ex_smooth ex_line k' /\ s_stops ex_few = false /\ s_algo ex_few = KNN /\
  ex_radii (navigate_all ex_env k (client0 (ex_garbage 0) ex_few) [[ex_mr "a" (-50) 1000; ex_mr "b" (-60) 1500; ex_mr "a" (-50) 3000; ex_poor 3500]]) =
    Ok [(NO_LEVEL, None, None); (NO_LEVEL, None, None); (OK, Some f1, Some INDOOR); (OK, Some f1, Some INDOOR)] /\
  ex_radii (navigate_all ex_env k' (client0 (ex_garbage 0) ex_smooth) [[ex_mr "a" (-50) 1000; ex_mr "a" (-50) 3000]]) =
    Ok [(NO_LEVEL, None, None); (OK, Some (fsqrt (fexp ((fofZ (-60) -! fofZ (-50)) /! fofZ 2)) +! f1), Some INDOOR)].
Proof.
  destruct (ex_config ex_few ex_rps) as [k| | |] eqn:E; [|vm_compute in E; discriminate..].
  destruct (ex_config ex_smooth ex_line) as [k'| | |] eqn:E'; [|vm_compute in E'; discriminate..].
  exists k, k'. split; [exact (ex_built _ _ _ E)|]. split; [exact (ex_built _ _ _ E')|]. split; [reflexivity|]. split; [reflexivity|].
  split; [vm_compute in E; injection E as <-|vm_compute in E'; injection E' as <-]; vm_compute; reflexivity.
Qed.
