(** C93: how old the signals behind a fix can be. *)
From Coq Require Import Lia Sorted.
From Verif Require Import Lib NumFloat SortInst Client Spec_Preproc Spec_Client Spec_Fresh Pf_Preproc Pf_Fresh Ex P_Client.
Local Open Scope string_scope.
Local Open Scope list_scope.
#[local] Existing Instance nf.
#[local] Existing Instance isorter.

(** without GNSS, smoothing and stops, every fix shows the place of a
    transmitter heard at most the averaging time, the dead-reckoning time and the
    longest silence before *)
Theorem C93_fresh {F : Type} {NF : Num F} {SO : Sorter} (e : env F) (s : settings F) (gs : list (geolevel F)) (k : config F)
    (g : garbage F) (bs : list (list (measurement F))) (c : client F) (os : list (list (noutput F))) (gap : Z) :
  built s gs k -> NoDup (map (@gl_id F) gs) -> ~ In "" (map (@gl_id F) gs) -> bare s ->
  (0 < bc_shift (cf_buf k))%Z -> (0 < s_nosignal s)%Z -> (0 < s_noaction s)%Z -> (gap < 1000 * s_nosignal s)%Z -> (gap < 1000 * s_noaction s)%Z ->
  s_type (st_data (g_sensor g)) <> LOCATION -> time_sorted (List.concat bs) ->
  Forall (fun m => (0 < st_ts m)%Z /\ no_location m) (List.concat bs) -> never_silent s (cf_col k) gap (List.concat bs) ->
  navigate_all e k (client0 g s) bs = Ok (c, os) ->
  Forall2 (fun m o => o_status o = OK ->
    fresh_fix s (cf_col k) (pc_dead (cf_post k) + (bc_keep (cf_buf k) + bc_shift (cf_buf k)) + gap) (List.concat bs) m o)
    (List.concat bs) (List.concat os).
Proof. exact (@fresh_all F NF SO e s gs k g bs c os gap). Qed.
Print Assumptions C93_fresh.

Lemma ex_hears k id rssi ts : ex_config (ex_zones false) ex_gls = Ok k -> valid_signal (ex_zones false) (cf_col k) (ex_radio id rssi) = Ok true ->
  heard_from (ex_zones false) (cf_col k) (ex_mr id rssi ts) id.
Proof.
  intros E H. destruct ex_names as [N1 N2]. destruct (Pf_ClientThrow.built_sound (ex_built _ _ _ E) N1 N2) as [S _].
  destruct (valid_signal_spec (ex_zones false) (ex_radio id rssi) (Pf_ClientThrow.sd_wf S)) as (v & V1 & V2). rewrite H in V1. injection V1 as <-.
  exists (ex_radio id rssi). split; [reflexivity|]. split; [reflexivity|]. apply V2. reflexivity.
Qed.
Definition ex_stroll : list (list (measurement SF)) :=
  [[ex_mr "a" (-50) 1000; ex_mr "a" (-50) 2000]; [ex_msn ACCELEROMETER 0 0 9 2100; ex_mr "b" (-50) 3500; ex_mr "b" (-50) 4600]].
(** a stroll from one transmitter to another meets the hypotheses with a gap of 1.5 s; the fixes
    show transmitters heard less than 7.5 s before *)
Example C93_example : exists k c os, ex_config (ex_zones false) ex_gls = Ok k /\ bare (ex_zones false) /\ (0 < bc_shift (cf_buf k))%Z /\
  (1500 < 1000 * s_nosignal (ex_zones false))%Z /\ (1500 < 1000 * s_noaction (ex_zones false))%Z /\ time_sorted (List.concat ex_stroll) /\
  Forall (fun m => (0 < st_ts m)%Z /\ no_location m) (List.concat ex_stroll) /\ never_silent (ex_zones false) (cf_col k) 1500 (List.concat ex_stroll) /\
  navigate_all ex_env k (client0 (ex_garbage 0) (ex_zones false)) ex_stroll = Ok (c, os) /\
  map (map (@o_status SF)) os = [[NO_LEVEL; OK]; [OK; OK; OK]] /\
  (pc_dead (cf_post k) + (bc_keep (cf_buf k) + bc_shift (cf_buf k)) + 1500 = 7500)%Z.
Proof.
  destruct (ex_config (ex_zones false) ex_gls) as [k| | |] eqn:E; [|vm_compute in E; discriminate..].
  assert (Va : forall ts, a_signal (ex_zones false) (cf_col k) (ex_mr "a" (-50) ts)).
  { intros ts. exists "a". apply ex_hears; [exact E|]. clear -E. vm_compute in E. injection E as <-. vm_compute. reflexivity. }
  assert (Vb : forall ts, a_signal (ex_zones false) (cf_col k) (ex_mr "b" (-50) ts)).
  { intros ts. exists "b". apply ex_hears; [exact E|]. clear -E. vm_compute in E. injection E as <-. vm_compute. reflexivity. }
  vm_compute in E. injection E as E.
  destruct (navigate_all ex_env k (client0 (ex_garbage 0) (ex_zones false)) ex_stroll) as [[c os]| | |] eqn:R; [|rewrite <- E in R; vm_compute in R; discriminate..].
  exists k, c, os. split; [reflexivity|]. split; [constructor; try reflexivity; discriminate|]. split; [rewrite <- E; vm_compute; reflexivity|].
  split; [reflexivity|]. split; [reflexivity|]. split; [unfold time_sorted; cbn; repeat constructor; lia|].
  split; [cbn; repeat constructor; cbn; discriminate|]. split.
  - intros a m b Eab Ex. cbn [List.concat ex_stroll app] in Eab.
    destruct a as [|x1 a]; [inversion Ex|]. injection Eab as <- Eab.
    destruct a as [|x2 a]; [injection Eab as <- _; exists (ex_mr "a" (-50) 1000); split; [cbn; auto|]; split; [apply Va|cbn; lia]|]. injection Eab as <- Eab.
    destruct a as [|x3 a]; [injection Eab as <- _; exists (ex_mr "a" (-50) 2000); split; [cbn; auto|]; split; [apply Va|cbn; lia]|]. injection Eab as <- Eab.
    destruct a as [|x4 a]; [injection Eab as <- _; exists (ex_mr "a" (-50) 2000); split; [cbn; auto|]; split; [apply Va|cbn; lia]|]. injection Eab as <- Eab.
    destruct a as [|x5 a]; [injection Eab as <- _; exists (ex_mr "b" (-50) 3500); split; [cbn; auto|]; split; [apply Vb|cbn; lia]|]. injection Eab as <- Eab.
    destruct a; discriminate.
  - split; [exact R|]. rewrite <- E in R |- *. vm_compute in R. injection R as _ <-. split; [reflexivity|vm_compute; reflexivity].
Qed.

(** after an hour's silence a fix can still show a transmitter heard only an hour ago *)
Theorem C93_silence_refuted : exists (k : config SF) gs g bs c os, built (ex_zones false) gs k /\ NoDup (map (@gl_id SF) gs) /\ ~ In "" (map (@gl_id SF) gs) /\
  bare (ex_zones false) /\ (0 < bc_shift (cf_buf k))%Z /\ s_type (st_data (g_sensor g)) <> LOCATION /\ time_sorted (List.concat bs) /\
  Forall (fun m => (0 < st_ts m)%Z /\ no_location m) (List.concat bs) /\ navigate_all ex_env k (client0 g (ex_zones false)) bs = Ok (c, os) /\
  ~ Forall2 (fun m o => o_status o = OK -> fresh_fix (ex_zones false) (cf_col k) 3600000 (List.concat bs) m o) (List.concat bs) (List.concat os).
Proof.
  set (gs := [mkGeoLevel "L1" [mkGTx "a" (lit 100 1000000) (lit 100 1000000) (fofZ 0) (mkPL (fofZ (-60)) (fofZ 2) (fofZ 1)) TBEACON;
                mkGTx "b" (lit 100 1000000) (lit 130 1000000) (fofZ 0) (mkPL (fofZ (-60)) (fofZ 2) (fofZ 1)) TBEACON] []
                (mkBox (mkXY (fofZ 0) (fofZ 0)) (mkXY (lit 1 1000) (lit 1 1000))) (fun _ _ => true) (mkGraph [] []) (fofZ 0)] : list (geolevel SF)).
  destruct (ex_config (ex_zones false) gs) as [k| | |] eqn:E; [|vm_compute in E; discriminate..].
  assert (B := ex_built _ _ _ E). vm_compute in E. injection E as E.
  set (bs := [[ex_mr "a" (-50) 1000; ex_mr "b" (-60) 3601000]] : list (list (measurement SF))).
  destruct (navigate_all ex_env k (client0 (ex_garbage 0) (ex_zones false)) bs) as [[c os]| | |] eqn:R; [|rewrite <- E in R; vm_compute in R; discriminate..].
  exists k, gs, (ex_garbage 0), bs, c, os. split; [exact B|]. split; [repeat constructor; intros []|]. split; [cbn; intuition discriminate|].
  split; [constructor; try reflexivity; discriminate|]. split; [rewrite <- E; vm_compute; reflexivity|]. split; [discriminate|].
  split; [unfold time_sorted; cbn; repeat constructor; lia|]. split; [cbn; repeat constructor|]. split; [exact R|].
  intros H. assert (L : List.length (List.concat os) = 2%nat) by (rewrite <- E in R; vm_compute in R; injection R as _ <-; reflexivity).
  destruct (List.concat os) as [|o1 [|o2 [|o3 r]]] eqn:Eo; try discriminate. cbn [List.concat bs app] in H.
  inversion H as [|? ? ? ? _ H2]; subst. inversion H2 as [|? ? ? ? H3 _]; subst. clear H H2 L.
  vm_compute in R. injection R as _ <-. cbn in Eo. injection Eo as _ <-. specialize (H3 eq_refl).
  destruct H3 as (m1 & i & l & t & M1 & M2 & M3 & M4 & M5 & M6). destruct M1 as [<-|[<-|[]]]; [cbn in M3; lia|].
  destruct M2 as (r & M2 & <- & _). injection M2 as <-. destruct M4 as [<-|[]]. destruct M6 as (_ & l0 & [<-|[]] & M6).
  destruct M5 as [M5|[M5|[]]]; [discriminate|]. injection M5 as <-. vm_compute in M6. discriminate.
Qed.
Print Assumptions C93_silence_refuted.
