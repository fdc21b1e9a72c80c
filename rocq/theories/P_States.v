(** C118: the states behind getStates(), the motion they report, and the flag
    that restarts the filter of satellite fixes. *)
From Verif Require Import Lib NumFloat SortInst Client Spec_Preproc Spec_Client Spec_Sensors Pf_Client Spec_States Ex P_Client.
From Coq Require Import Lia.
Local Open Scope string_scope.
Local Open Scope list_scope.
#[local] Existing Instance nf.
#[local] Existing Instance isorter.

Section Steps.
Context {F : Type} {NF : Num F} {SO : Sorter}.
Lemma update_sensor s (col : collector F) p m p' : update_measurements s col p m = Ok p' ->
  pp_sensor p' = match st_data m with MSensor d => mkSt d (st_ts m) | _ => pp_sensor p end.
Proof.
  unfold update_measurements. destruct (st_data m) as [r|d|d]; intros H.
  - inv_bind H. destruct a; injection Hb as <-; reflexivity.
  - injection H as <-; reflexivity.
  - injection H as <-; reflexivity.
Qed.
Lemma step_facts e k c m c' o : nav_step e k c m = Ok (c', o) -> exists mi n,
  sf_step (e_fuel e) (cf_set k) (c_sf c) (pp_sensor (c_pre c')) (st_ts m) = Ok (c_sf c', mi) /\
  pp_sensor (c_pre c') = (match st_data m with MSensor d => mkSt d (st_ts m) | _ => pp_sensor (c_pre c) end) /\
  c_states c' = c_states c ++ [n] /\ steps_of n = motion_of mi /\
  ns_indoor n = point_of (po_in (c_post c')) /\ ns_outdoor n = point_of (po_out (c_post c')).
Proof.
  intros H. unfold nav_step in H. cbv zeta in H. inv_bind H. rename a into pre. inv_bind Hb. destruct a as [sf mi].
  inv_bind Hb0. destruct a as [pre1 rs]. inv_bind Hb. rename a into det. destruct (level_step _ _ _ _) as [lev lid] eqn:El.
  inv_bind Hb0. destruct a as [outd outp]. inv_bind Hb. rename a into oc. inv_bind Hb0. injection Hb as <- <-.
  cbn [c_pre c_sf c_states c_post]. destruct (extract_radio_keeps _ _ _ _ _ Ha1) as (_ & _ & E3 & _).
  exists mi. eexists. rewrite E3. split; [rewrite <- (update_cur _ _ _ _ Ha); exact Ha0|]. split; [exact (update_sensor _ _ _ _ _ Ha)|].
  split; [reflexivity|]. repeat split.
Qed.
Lemma process_motion e k ms : forall c c' os, process e k c ms = Ok (c', os) -> exists mis ns,
  sf_run (e_fuel e) (cf_set k) (c_sf c) (fusion_inputs (pp_sensor (c_pre c)) ms) = Ok (c_sf c', mis) /\
  c_states c' = c_states c ++ ns /\ map steps_of ns = map motion_of mis /\
  pp_sensor (c_pre c') = last_sample (pp_sensor (c_pre c)) ms.
Proof.
  induction ms as [|m ms IH]; intros c c' os H.
  - injection H as <- <-. exists [], []. rewrite app_nil_r. repeat split.
  - cbn [process] in H. inv_bind H. destruct a as [c1 o]. inv_bind Hb. destruct a as [c2 os2]. injection Hb0 as <- <-.
    destruct (step_facts e k c m c1 o Ha) as (mi & n & E1 & E2 & E3 & E4 & _).
    destruct (IH _ _ _ Ha0) as (mis & ns & R1 & R2 & R3 & R4). exists (mi :: mis), (n :: ns).
    cbn [fusion_inputs sf_run map]. rewrite <- E2. rewrite E1. cbn [bind]. rewrite R1. cbn [bind].
    split; [reflexivity|]. split; [rewrite R2, E3, <- app_assoc; reflexivity|]. split; [rewrite E4, R3; reflexivity|].
    rewrite R4, E2. reflexivity.
Qed.
End Steps.

(** after a call with a batch that is not empty, getStates() holds one state for
    each accepted measurement; its counter and its length are those the sensor
    fusion reports when fed the latest sensor sample once per accepted
    measurement, whatever else the client does *)
Theorem C118_states {F : Type} {NF : Num F} {SO : Sorter} (e : env F) (k : config F) (c c' : client F) b os :
  b <> [] -> navigate e k c b = Ok (c', os) -> exists mis,
  sf_run (e_fuel e) (cf_set k) (c_sf c) (fusion_inputs (pp_sensor (c_pre c)) (accepted b)) = Ok (c_sf c', mis) /\
  map steps_of (c_states c') = map motion_of mis /\ List.length (c_states c') = List.length (accepted b) /\
  pp_sensor (c_pre c') = last_sample (pp_sensor (c_pre c)) (accepted b).
Proof.
  intros Hb H. rewrite navigate_process in H by exact Hb.
  destruct (process_motion e k _ _ _ _ H) as (mis & ns & R1 & R2 & R3 & R4). cbn [clear_states c_sf c_pre c_states app] in *.
  exists mis. split; [exact R1|]. rewrite R2. split; [exact R3|]. split; [|exact R4].
  destruct (process_states _ _ _ _ H) as (_ & l & Hl & El & _). cbn [clear_states c_states app] in El. rewrite R2 in El. rewrite El. exact Hl.
Qed.
Print Assumptions C118_states.

(** the newest state holds the latest indoor and outdoor positions *)
Theorem C118_points {F : Type} {NF : Num F} {SO : Sorter} (e : env F) (k : config F) (c c' : client F) b os :
  b <> [] -> navigate e k c b = Ok (c', os) -> exists l n, c_states c' = l ++ [n] /\
  ns_indoor n = point_of (po_in (c_post c')) /\ ns_outdoor n = point_of (po_out (c_post c')).
Proof.
  intros Hb H. rewrite navigate_process in H by exact Hb.
  assert (Ha : accepted b <> []) by (destruct b; [contradiction|discriminate]).
  assert (G : forall ms c0 os, ms <> [] -> process e k c0 ms = Ok (c', os) -> exists l n, c_states c' = l ++ [n] /\
     ns_indoor n = point_of (po_in (c_post c')) /\ ns_outdoor n = point_of (po_out (c_post c'))).
  { clear. induction ms as [|m ms IH]; intros c0 os N H; [contradiction|]. cbn [process] in H. inv_bind H. destruct a as [c1 o].
    inv_bind Hb. destruct a as [c2 os2]. injection Hb0 as -> <-. destruct ms as [|m2 ms].
    - cbn [process] in Ha0. injection Ha0 as <- _. destruct (step_facts e k c0 m c1 o Ha) as (mi & n & _ & _ & E3 & _ & E5 & E6). eauto.
    - apply (IH c1 os2); [discriminate|exact Ha0]. }
  exact (G _ _ _ Ha H).
Qed.
Print Assumptions C118_points.

(** over the whole life of a client *)
Theorem C118_life {F : Type} {NF : Num F} {SO : Sorter} (e : env F) (k : config F) (g : garbage F) bs c os :
  navigate_all e k (client0 g (cf_set k)) bs = Ok (c, os) -> exists mis,
  sf_run (e_fuel e) (cf_set k) (sf0 (g_magn g) (g_acc g)) (fusion_inputs (g_sensor g) (all_accepted bs)) = Ok (c_sf c, mis).
Proof.
  assert (A : forall ms1 ms2 l f f1 f2 r1 r2, sf_run (e_fuel e) (cf_set k) f (fusion_inputs l ms1) = Ok (f1, r1) ->
     sf_run (e_fuel e) (cf_set k) f1 (fusion_inputs (last_sample l ms1) ms2) = Ok (f2, r2) ->
     sf_run (e_fuel e) (cf_set k) f (fusion_inputs l (ms1 ++ ms2)) = Ok (f2, r1 ++ r2)).
  { induction ms1 as [|m ms1 IH]; intros ms2 l f f1 f2 r1 r2 H1 H2.
    - injection H1 as <- <-. exact H2.
    - cbn [app fusion_inputs sf_run] in *. inv_bind H1. destruct a as [fa oa]. inv_bind Hb. destruct a as [fb ob]. injection Hb0 as <- <-.
      rewrite Ha. cbn [bind]. rewrite (IH ms2 _ _ _ _ _ _ Ha0 H2). reflexivity. }
  intros H. change (sf0 (g_magn g) (g_acc g)) with (c_sf (client0 g (cf_set k))).
  change (g_sensor g) with (pp_sensor (c_pre (client0 g (cf_set k)))). revert H. generalize (client0 g (cf_set k)). revert c os.
  induction bs as [|b bs IH]; intros c os c0 H.
  - injection H as <- <-. exists []. reflexivity.
  - cbn [navigate_all] in H. inv_bind H. destruct a as [c1 o1]. inv_bind Hb. destruct a as [c2 o2]. injection Hb0 as <- <-.
    destruct (IH _ _ _ Ha0) as (r2 & R2). cbn [all_accepted flat_map]. fold (all_accepted bs).
    destruct b as [|m b].
    + injection Ha as <- <-. exists r2. exact R2.
    + destruct (@C118_states F NF SO e k c0 c1 (m :: b) o1 ltac:(discriminate) Ha) as (r1 & R1 & _ & _ & E).
      exists (r1 ++ r2). rewrite E in R2. exact (A _ _ _ _ _ _ _ _ R1 R2).
Qed.
Print Assumptions C118_life.

(** the flag says whether this measurement brought a new indoor position *)
Theorem C118_flag {F : Type} {NF : Num F} {SO : Sorter} (e : env F) (k : config F) (c c' : client F) m o :
  nav_step e k c m = Ok (c', o) ->
  (c_flag c' = true -> exists lid l rs knn st, get_level (cf_col k) lid = Ok l /\
     indoor k (c_knn c) l (st_ts m) rs = Ok (knn, (st, po_in (c_post c'))) /\ p_empty (po_in (c_post c')) = false) /\
  (c_flag c' = false -> po_in (c_post c') = po_in (c_post c)).
Proof.
  intros H. destruct (nav_step_inv _ _ _ _ H) as (pre & sf & mi & pre1 & rs & det & lev & lid & outd & outp & oc & ns
    & H1 & _ & _ & _ & _ & _ & H7 & _ & ->). cbn [c_flag c_post]. rewrite (update_cur _ _ _ _ H1) in H7.
  set (lid' := drop_level _ _ _ _ _) in H7. clearbody lid'. unfold locate in H7. destruct (has_level _ _).
  - inv_bind H7. rename a into l. inv_bind Hb. destruct a as [knn [st inp]].
    unfold fuse_positions in Hb0. set (po := fill_states _ _ _ _) in Hb0. inv_bind Hb0. destruct a as [[[az azv] ph] pg].
    inv_bind Hb. destruct a as [po' p']. injection Hb0 as <-. cbn [oc_flag oc_post].
    assert (E : po_in po' = po_in po).
    { clear - Ha2. unfold processed in Ha2. destruct (p_empty _); [injection Ha2 as <- _; reflexivity|].
      destruct (negb _); [injection Ha2 as <- _; reflexivity|]. destruct (_ <=? _)%Z; [injection Ha2 as <- _; reflexivity|].
      inv_bind Ha2. destruct a as [sm r]. destruct (if s_timesmooth _ then _ else _) as [tm r']. destruct (hold_or_move _ _ _ _ _ _) as [last extr].
      inv_bind Hb. injection Hb0 as <- _. reflexivity. }
    assert (E2 : po_in po = if p_empty inp then po_in (c_post c) else inp).
    { unfold po, fill_states. destruct (p_empty inp), (p_empty outp); reflexivity. }
    rewrite E, E2. destruct (p_empty inp) eqn:Ei; cbn [negb]; split; intros X; try discriminate; [reflexivity|].
    exists lid', l, rs, knn, st. auto.
  - destruct (negb _); injection H7 as <-; cbn [oc_flag oc_post]; split; intros X; try discriminate; reflexivity.
Qed.
Print Assumptions C118_flag.

(** and while it is set the filter of satellite fixes starts anew *)
Theorem C118_window {F : Type} {NF : Num F} {SO : Sorter} (e : env F) (k : config F) (c c' : client F) m o :
  nav_step e k c m = Ok (c', o) -> c_flag c = true -> (List.length (ou_buf (c_outd c')) <= 1)%nat.
Proof.
  intros H Hf. destruct (nav_step_inv _ _ _ _ H) as (pre & sf & mi & pre1 & rs & det & lev & lid & outd & outp & oc & ns
    & _ & _ & _ & _ & _ & H6 & _ & _ & ->). cbn [c_outd]. rewrite Hf in H6. clear - H6.
  unfold outdoor_position in H6. cbn [orb ou_last ou_buf] in H6. destruct (gps_of _ _) as [[[la lo] dv]|].
  - destruct (find _ _) as [l|]; [|injection H6 as <- <-; cbn; lia]. inv_bind H6. destruct a as [buf valid].
    assert (L : (List.length buf <= 1)%nat).
    { destruct (_ && _) in Ha; [|injection Ha as <- <-; cbn; lia]. destruct (_ && _) in Ha; [discriminate|].
      unfold sigma_add in Ha. destruct (Nat.eqb _ _); injection Ha as <- <-; cbn; lia. }
    destruct (_ || _); injection Hb as <- <-; exact L.
  - destruct (_ <! _); injection H6 as <- <-; cbn; lia.
Qed.
Print Assumptions C118_window.

(** a sensor sample, two radio measurements and an old one: three states; the
    sample is fed three times *)
Definition ex_states_batch : list (measurement SF) :=
  [ex_msn ACCELEROMETER 0 0 10 1000; ex_mr "a" (-55) 1100; ex_mr "b" (-60) 900; ex_mr "b" (-60) 2400].
Example C118_example : ('(c, os) <- ex_run (ex_zones false) ex_gls (ex_garbage 0) [ex_states_batch] ;;
    Ok (map steps_of (c_states c), List.length os, c_flag c)) = Ok ([(0%Z, f0); (0%Z, f0); (0%Z, f0)], 1%nat, true) /\
  map snd (fusion_inputs (g_sensor (ex_garbage 0)) (accepted ex_states_batch)) = [1000; 1100; 2400]%Z /\
  map (fun x => st_ts (fst x)) (fusion_inputs (g_sensor (ex_garbage 0)) (accepted ex_states_batch)) = [1000; 1000; 1000]%Z.
Proof. split; [vm_compute; reflexivity|]. split; vm_compute; reflexivity. Qed.
