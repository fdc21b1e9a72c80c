(** C16-C21: radio buffer and preprocessor. *)
From Coq Require Import Reals Lra.
From Verif Require Import Lib LibR NumOrd NumReal NumFloat SortInst Preproc Spec_Preproc Pf_Preproc Ex.
Local Open Scope string_scope.
Local Open Scope list_scope.
#[local] Existing Instance nf.
#[local] Existing Instance isorter.

(** ** C16 *)
Theorem C16_radio_averaging {F : Type} {NF : Num F} {SO : Sorter} (c : bufcfg) (b : buffer F) (s : Z) :
  (bc_shift c <= b_cur b - b_last b)%Z -> averages_of (snd (buffer_extract c b s)) (b_ms b).
Proof. exact (@extract_averages F NF SO c b s). Qed.
Print Assumptions C16_radio_averaging.

(** over the reals: the exact mean, between any bounds of the group, whatever the arrival order *)
Theorem C16_real_mean (out : list (radio RX)) (w : list (stamped (radio RX))) : averages_of out w ->
  (forall m, In m w -> defined (r_rssi (st_data m)) /\ defined (r_dist (st_data m))) ->
  forall o, In o out ->
  let g := of_tx (r_id o) w in
  g <> [] /\
  r_rssi o = Some (rsum (map (fun m => rval (r_rssi (st_data m))) g) / INR (List.length g))%R /\
  r_dist o = Some (rsum (map (fun m => rval (r_dist (st_data m))) g) / INR (List.length g))%R.
Proof. exact (@averages_real out w). Qed.
Print Assumptions C16_real_mean.

Theorem C16_real_mean_bounds (out : list (radio RX)) (w : list (stamped (radio RX))) : averages_of out w ->
  (forall m, In m w -> defined (r_rssi (st_data m)) /\ defined (r_dist (st_data m))) ->
  forall o lo hi, In o out ->
  (forall m, In m (of_tx (r_id o) w) -> lo <= rval (r_rssi (st_data m)) <= hi)%R ->
  exists x, r_rssi o = Some x /\ (lo <= x <= hi)%R.
Proof. exact (@averages_real_bounds out w). Qed.
Print Assumptions C16_real_mean_bounds.

Theorem C16_real_order_independent (SO SO' : Sorter) (c : bufcfg) (b b' : buffer RX) (s s' : Z) :
  (bc_shift c <= b_cur b - b_last b)%Z -> (bc_shift c <= b_cur b' - b_last b')%Z ->
  Permutation (b_ms b) (b_ms b') ->
  (forall m, In m (b_ms b) -> defined (r_rssi (st_data m)) /\ defined (r_dist (st_data m))) ->
  map (fun o => (r_id o, r_rssi o, r_dist o)) (snd (@buffer_extract _ _ SO c b s)) =
  map (fun o => (r_id o, r_rssi o, r_dist o)) (snd (@buffer_extract _ _ SO' c b' s')).
Proof.
  intros H H' Hp Hd. exact (averages_order (extract_averages c b s H) (extract_averages c b' s' H') Hp Hd).
Qed.
Print Assumptions C16_real_order_independent.

Section FloatExamples.
Let sm (id : string) (r ts : Z) : stamped (radio SF) := mkSt (ex_radio id r) ts.
Let cfg : bufcfg := mkBufcfg 2000 1000 3000 true.

(** interleaved transmitters are regrouped and averaged *)
Example C16_example :
  let b := mkBuf [sm "b" (-60) 1000; sm "a" (-50) 1200; sm "b" (-70) 1400; sm "a" (-60) 2600] 1000 2600 0 in
  (bc_shift cfg <= b_cur b - b_last b)%Z /\
  map (fun o => (r_id o, r_rssi o)) (snd (buffer_extract cfg b 0)) =
  [("a", fofZ (-55)); ("b", fofZ (-65))].
Proof. split; [cbn; lia|vm_compute; reflexivity]. Qed.
End FloatExamples.

(** ** C17 *)
Theorem C17_gated_extraction {F : Type} {NF : Num F} {SO : Sorter} (c : bufcfg) (b : buffer F) (s : Z) :
  (b_cur b - b_last b < bc_shift c)%Z ->
  snd (buffer_extract c b s) = [] /\ b_ms (fst (buffer_extract c b s)) = b_ms b /\
  b_last (fst (buffer_extract c b s)) = b_last b /\ b_cur (fst (buffer_extract c b s)) = b_cur b.
Proof. exact (@extract_gated F NF SO c b s). Qed.
Print Assumptions C17_gated_extraction.

Theorem C17_open_extraction {F : Type} {NF : Num F} {SO : Sorter} (c : bufcfg) (b : buffer F) (s : Z) :
  (bc_shift c <= b_cur b - b_last b)%Z -> b_ms b <> [] -> snd (buffer_extract c b s) <> [].
Proof. intros H. exact (averages_nonempty (extract_averages c b s H)). Qed.
Print Assumptions C17_open_extraction.

(** consecutive hand-overs are at least the window shift apart, over any history *)
Theorem C17_hand_over_spacing {F : Type} {NF : Num F} {SO : Sorter} (c : bufcfg) (ops : list (bop F)) :
  (0 <= bc_shift c)%Z -> Forall (fun t => (0 < t)%Z) (add_times ops) ->
  Sorted (fun x y => (bc_shift c <= y - x)%Z) (hand_times 0 ops (snd (buf_run c buffer0 ops))).
Proof. exact (@hand_spacing0 F NF SO c ops). Qed.
Print Assumptions C17_hand_over_spacing.

Section FloatExamples17.
Let sm (id : string) (r ts : Z) : stamped (radio SF) := mkSt (ex_radio id r) ts.
Let cfg : bufcfg := mkBufcfg 2000 1000 3000 true.
Example C17_example :
  let ops := [BAdd (sm "a" (-50) 1000); BExtract 0; BAdd (sm "a" (-50) 2000); BExtract 0;
              BAdd (sm "b" (-50) 2500); BExtract 0; BAdd (sm "b" (-50) 3700); BExtract 0] in
  (0 <= bc_shift cfg)%Z /\ Forall (fun t => (0 < t)%Z) (add_times ops) /\
  hand_times 0 ops (snd (buf_run cfg buffer0 ops)) = [2000; 3700]%Z.
Proof. split; [cbn; lia|]. split; [cbn; repeat constructor|vm_compute; reflexivity]. Qed.
End FloatExamples17.

(** ** C18: the buffer refines the abstract window *)
Theorem C18_window_content {F : Type} {NF : Num F} {SO : Sorter} (c : bufcfg) (ops : list (bop F)) :
  (0 <= bc_keep c)%Z -> time_ordered ops ->
  Permutation (b_ms (fst (buf_run c buffer0 ops))) (map stored (win_content c (win_run c ops win0))) /\
  outs_ok c win0 ops (snd (buf_run c buffer0 ops)).
Proof. exact (@refine0 F NF SO c ops). Qed.
Print Assumptions C18_window_content.

(** the keep period is never negative, whatever the settings *)
Theorem C18_keep_period {F : Type} {NF : Num F} (s : settings F) (c : bufcfg) : buffer_config s = Ok c ->
  (0 <= bc_keep c)%Z /\
  (forall a h, to_ms (s_avg s) = Ok a -> to_ms (s_shift s) = Ok h -> 0 <= a -> 0 <= h -> 0 <= bc_shift c)%Z.
Proof. exact (@config_keep F NF s c). Qed.
Print Assumptions C18_keep_period.

Section FloatExamples18.
Let sm (id : string) (r ts : Z) : stamped (radio SF) := mkSt (ex_radio id r) ts.
Let cfg : bufcfg := mkBufcfg 2000 1000 3000 true.
(** the measurement of time 1000 is dropped by the extraction of time 3500 *)
Example C18_example :
  let ops := [BAdd (sm "a" (-50) 1000); BExtract 0; BAdd (sm "b" (-60) 2000); BAdd (sm "a" (-50) 3500);
              BExtract 0; BAdd (sm "c" (-60) 3600)] in
  (0 <= bc_keep cfg)%Z /\ time_ordered ops /\
  map (@st_ts _) (b_ms (fst (buf_run cfg buffer0 ops))) = [2000; 3500; 3600]%Z /\
  map (@st_ts _) (win_content cfg (win_run cfg ops win0)) = [2000; 3500; 3600]%Z.
Proof.
  split; [cbn; lia|]. split; [split; cbn; repeat (constructor; try lia)|]. split; vm_compute; reflexivity.
Qed.
End FloatExamples18.

(** ** C19 *)
Theorem C19_stand_still_keeps {F : Type} {NF : Num F} {SO : Sorter} (c : bufcfg) (ops : list (bop F)) :
  bc_usestops c = true ->
  forall b : buffer F, (0 < b_step b)%Z -> (bc_stop c < b_cur b - b_step b)%Z ->
  Forall (fun t => (bc_stop c < t - b_step b)%Z) (add_times ops) ->
  Forall (fun o => match o with BExtract s => (s <= 0)%Z | BAdd _ => True end) ops ->
  Permutation (b_ms (fst (buf_run c b ops))) (b_ms b ++ map stored (added ops)).
Proof. exact (@still_keeps F NF SO c ops). Qed.
Print Assumptions C19_stand_still_keeps.

(** the buffer grows beyond every bound *)
Theorem C19_unbounded {F : Type} {NF : Num F} {SO : Sorter} (c : bufcfg) (b : buffer F) (r : radio F) :
  bc_usestops c = true -> (0 < b_step b)%Z -> (bc_stop c < b_cur b - b_step b)%Z ->
  forall n : nat, exists ops,
    Forall (fun o => match o with BExtract s => (s <= 0)%Z | BAdd m => st_ts m = b_cur b end) ops /\
    (n <= List.length (b_ms (fst (buf_run c b ops))))%nat.
Proof.
  intros Hu Hs Hc n. exists (flat_map (fun _ => [BAdd (mkSt r (b_cur b)); BExtract 0]) (seq 0 n)).
  set (ops := flat_map _ _).
  assert (Hf : Forall (fun o => match o with BExtract s => (s <= 0)%Z | BAdd m => st_ts m = b_cur b end) ops).
  { apply Forall_flat_map, Forall_forall. intros i _. repeat constructor; cbn; lia. }
  split; [exact Hf|].
  assert (Ha : forall l : list nat, List.length (added (flat_map (fun _ => [BAdd (mkSt r (b_cur b)); BExtract 0]) l)) = List.length l).
  { induction l as [|i l IH]; [reflexivity|]. unfold added in *. cbn [flat_map app List.length]. rewrite IH; reflexivity. }
  rewrite (Permutation_length (C19_stand_still_keeps c ops Hu b Hs Hc
     ltac:(clear -Hf Hc; induction Hf as [|o ops Ho Hf IH]; [constructor|]; destruct o; cbn in *; [constructor; [rewrite Ho; exact Hc|exact IH]|exact IH])
     ltac:(eapply Forall_impl; [|exact Hf]; intros [m|z]; cbn; auto))).
  unfold ops; rewrite app_length, map_length, Ha, seq_length. lia.
Qed.
Print Assumptions C19_unbounded.

Section FloatExamples19.
Let sm (id : string) (r ts : Z) : stamped (radio SF) := mkSt (ex_radio id r) ts.
Let cfg : bufcfg := mkBufcfg 2000 1000 3000 true.
(** much older than the window, still kept *)
Example C19_example :
  let b := mkBuf [sm "a" (-50) 5000] 5000 5000 1000 in
  let ops := [BAdd (sm "a" (-50) 7000); BExtract 0; BAdd (sm "b" (-50) 20000); BExtract 0] in
  bc_usestops cfg = true /\ (0 < b_step b)%Z /\ (bc_stop cfg < b_cur b - b_step b)%Z /\
  Forall (fun t => (bc_stop cfg < t - b_step b)%Z) (add_times ops) /\
  map (@st_ts _) (b_ms (fst (buf_run cfg b ops))) = [5000; 7000; 20000]%Z.
Proof. cbn; repeat split; auto; repeat constructor. Qed.
End FloatExamples19.

(** ** C20 *)
Theorem C20_validity_filter {F : Type} {NF : Num F} (s : settings F) (c : collector F) (m : radio F) :
  wf_collector c -> exists v, valid_signal s c m = Ok v /\ (v = true <-> accepted_radio s c m).
Proof. exact (@valid_signal_spec F NF s c m). Qed.
Print Assumptions C20_validity_filter.

(** every collector built from geo levels with distinct ids meets the hypothesis *)
Theorem C20_collector_wf {F : Type} {NF : Num F} (gs : list (geolevel F)) (c : collector F) :
  NoDup (map (@gl_id F) gs) -> add_geo_levels col0 gs = Ok c -> wf_collector c.
Proof. intros Hn. exact (@add_geo_levels_wf F NF gs col0 c col0_wf Hn). Qed.
Print Assumptions C20_collector_wf.

Theorem C20_radio_update {F : Type} {NF : Num F} {SO : Sorter} (s : settings F) (c : collector F) (p : preproc F)
    (r : radio F) (ts : Z) : wf_collector c ->
  exists p', update_measurements s c p (mkSt (MRadio r) ts) = Ok p' /\
  pp_cur p' = ts /\ pp_sensor p' = pp_sensor p /\ pp_nmea p' = pp_nmea p /\
  ((accepted_radio s c r /\ pp_signal p' = ts /\ pp_buf p' = buffer_add (pp_buf p) (mkSt r ts)) \/
   (~ accepted_radio s c r /\ pp_signal p' = pp_signal p /\ pp_buf p' = pp_buf p)).
Proof. exact (@update_radio_spec F NF s c p r ts). Qed.
Print Assumptions C20_radio_update.

Theorem C20_other_update {F : Type} {NF : Num F} (s : settings F) (c : collector F) (p : preproc F) m :
  (forall r, st_data m <> MRadio r) ->
  exists p', update_measurements s c p m = Ok p' /\ pp_signal p' = pp_signal p /\ pp_buf p' = pp_buf p.
Proof. exact (@update_other_spec F NF s c p m). Qed.
Print Assumptions C20_other_update.

(** accepted; too weak; unknown transmitter; wrong signal type *)
Example C20_example : let s := @ex_settings SF nf KNN false 1 false false false in
  wf_collector (@ex_col SF nf) /\
  map (fun m => @valid_signal SF nf s ex_col m)
    [@ex_radio _ nf "c" (-70); @ex_radio _ nf "c" (-100); @ex_radio _ nf "zz" (-70);
     @mkRadio SF WIFI "c" (@fofZ _ nf (-70)) (@fofZ _ nf 0) (@fofZ _ nf 0) (@fofZ _ nf 0)] =
  [Ok true; Ok false; Ok false; Ok false].
Proof.
  split; [|vm_compute; reflexivity]. split.
  - repeat constructor; cbn; intuition discriminate.
  - intros id i. cbn [col_levels col_index ex_col alookup].
    destruct (String.eqb_spec id "L1") as [->|N1]; [|destruct (String.eqb_spec id "L2") as [->|N2]].
    + split; [intros H; injection H as <-; eexists; split; reflexivity|].
      intros (l & Hl & E). destruct i as [|[|[|]]]; cbn in Hl; try discriminate; [reflexivity|].
      injection Hl as <-; discriminate.
    + split; [intros H; injection H as <-; eexists; split; reflexivity|].
      intros (l & Hl & E). destruct i as [|[|[|]]]; cbn in Hl; try discriminate; [|reflexivity].
      injection Hl as <-; discriminate.
    + split; [discriminate|]. intros (l & Hl & E).
      destruct i as [|[|[|]]]; cbn in Hl; try discriminate; injection Hl as <-; cbn in E; congruence.
Qed.

(** ** C21 *)
Theorem C21_closest {F : Type} {NF : Num F} {SO : Sorter} (s : settings F) (ms sel : list (radio F)) :
  s_closest s = true -> closest_aps s ms = Ok sel ->
  exists dropped, Permutation ms (sel ++ dropped) /\
  List.length sel = Nat.min (s_nclosest s) (List.length ms) /\
  StronglySorted (fun a b => (r_rssi a <! r_rssi b) = false) sel /\
  (forall a b, In a sel -> In b dropped -> (r_rssi a <! r_rssi b) = false).
Proof. exact (@closest_spec F NF SO s ms sel). Qed.
Print Assumptions C21_closest.

(** without NaN values the selection is always defined *)
Theorem C21_closest_defined {F : Type} {NF : Num F} {OF : NumOrd F} {SO : Sorter} (s : settings F) (ms : list (radio F)) :
  (forall m, In m ms -> (r_rssi m <=! r_rssi m) = true) -> exists sel, closest_aps s ms = Ok sel.
Proof. exact (@closest_defined F NF OF SO s ms). Qed.
Print Assumptions C21_closest_defined.

(** the measurements handed on by the preprocessor *)
Theorem C21_extraction {F : Type} {NF : Num F} {SO : Sorter} (s : settings F) bc (c : collector F) p ls p' out :
  s_closest s = true -> extract_radio s bc c p ls = Ok (p', out) ->
  let avg := snd (buffer_extract bc (pp_buf p) ls) in
  exists sel dropped, Permutation avg (sel ++ dropped) /\
  Forall2 (fun m m' => r_id m' = r_id m /\ r_rssi m' = r_rssi m) sel out /\
  List.length out = Nat.min (s_nclosest s) (List.length avg) /\
  StronglySorted (fun a b => (r_rssi a <! r_rssi b) = false) out /\
  (forall a b, In a out -> In b dropped -> (r_rssi a <! r_rssi b) = false).
Proof. exact (@extract_radio_closest F NF SO s bc c p ls p' out). Qed.
Print Assumptions C21_extraction.

Example C21_example : let s := @ex_settings SF nf KNN true 1 false false false in
  s_closest s = true /\
  @closest_aps SF nf isorter s (@ex_ms SF nf) = Ok [@ex_radio _ nf "a" (-55)].
Proof. split; vm_compute; reflexivity. Qed.
