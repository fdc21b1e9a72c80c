(** C69-C70: stand-alone pedometer. *)
From Coq Require Import Reals Lra Lia.
From Verif Require Import Lib NumOrd NumReal NumFloat LibR SortInst Sensors SaPed Spec_Sensors Spec_SaPed Pf_Angle Pf_Sensors Pf_SaPed Ex.
Local Open Scope string_scope.
Local Open Scope list_scope.
Local Open Scope nat_scope.
#[local] Existing Instance nf.

(** ** C69: batches *)
(** For samples at most 700 ms apart and in order, however they are cut into
    batches, the steps are those of the untrimmed signal from the first
    examined value on. *)
Theorem C69_refines {F : Type} {NF : Num F} {NO : NumOrd F} (bs : list (list (stamped (sensor F)))) :
  regular (List.concat bs) -> @sane F NF (List.length (List.concat bs)) ->
  exists p r, saped_run ped0 bs = Ok (p, r) /\ List.concat r = detect_after (warm_up 0 bs) (signal (List.concat bs)).
Proof. exact (@run_refines F NF NO bs). Qed.
Print Assumptions C69_refines.

(** hence the cutting does not matter once the same values have been skipped *)
Theorem C69_batching {F : Type} {NF : Num F} {NO : NumOrd F} (bs1 bs2 : list (list (stamped (sensor F)))) p1 r1 p2 r2 :
  regular (List.concat bs1) -> @sane F NF (List.length (List.concat bs1)) ->
  List.concat bs1 = List.concat bs2 -> warm_up 0 bs1 = warm_up 0 bs2 ->
  saped_run ped0 bs1 = Ok (p1, r1) -> saped_run ped0 bs2 = Ok (p2, r2) -> List.concat r1 = List.concat r2.
Proof.
  intros H1 H2 E W R1 R2. destruct (@run_refines F NF NO bs1 H1 H2) as (q1 & s1 & Q1 & S1). rewrite E in H1, H2.
  destruct (@run_refines F NF NO bs2 H1 H2) as (q2 & s2 & Q2 & S2). rewrite R1 in Q1. rewrite R2 in Q2.
  injection Q1 as <- <-. injection Q2 as <- <-. rewrite S1, S2, E, W. reflexivity.
Qed.
Print Assumptions C69_batching.

(** the example program prints the number of steps from the fourth sample on *)
Lemma warm_up_singles {F} (ms : list (stamped (sensor F))) : forall n, n <= 3 -> warm_up n (map (fun m => [m]) ms) = Nat.min 3 (n + List.length ms).
Proof.
  induction ms as [|m t IH]; intros n H; cbn [map warm_up List.length]; [lia|].
  destruct (Nat.leb_spec (n + 1) 3); [rewrite IH by lia; lia|lia].
Qed.
Lemma concat_singles {A} (l : list A) : List.concat (map (fun x => [x]) l) = l.
Proof. induction l; cbn; congruence. Qed.
Theorem C69_main {F : Type} {NF : Num F} {NO : NumOrd F} (ms : list (stamped (sensor F))) :
  regular ms -> @sane F NF (List.length ms) ->
  saped_count ms = Ok (List.length (detect_after 3 (signal ms))).
Proof.
  intros H1 H2. rewrite <- (concat_singles ms) in H1, H2. destruct (@run_refines F NF NO _ H1 H2) as (p & r & E & ER).
  rewrite concat_singles in *. unfold saped_count. rewrite E. cbn [bind]. rewrite ER, warm_up_singles by lia. cbn [Nat.add].
  f_equal. f_equal. destruct (Nat.le_gt_cases 3 (List.length ms)) as [L|L]; [rewrite Nat.min_l by lia; reflexivity|].
  rewrite Nat.min_r by lia. assert (Ls : List.length (signal ms) = List.length ms) by apply signal_from_length.
  unfold detect_after. rewrite !skipn_all2 by lia. reflexivity.
Qed.
Print Assumptions C69_main.

(** one sample per call is the pedometer of the navigation core (C45, C46) *)
Theorem C69_core {F : Type} {NF : Num F} (ms : list (stamped (sensor F))) p :
  Forall (fun m => s_type (st_data m) = ACCELEROMETER) ms -> saped_run p (map (fun m => [m]) ms) = ped_run p ms.
Proof. exact (@run_core F NF ms p). Qed.
Print Assumptions C69_core.

(** samples: magnitude v at time t *)
Definition ex_mag {F} {NF : Num F} (v t : Z) : stamped (sensor F) := ex_sensor ACCELEROMETER 0 0 v t.
(** the numbers of the example are sane in both instances *)
Example C69_sane_real n : @sane RX num_real n.
Proof.
  split.
  - rewrite rx_f1, rx_ofZ, rx_mul, rx_f0, rx_ltb. apply Rltb_true. lra.
  - intros i _. unfold fofnat. rewrite rx_ofZ, rx_f0, rx_eqb. destruct (Reqb (IZR (Z.of_nat (S i))) 0) eqn:E; [|reflexivity].
    apply Reqb_true in E. apply (eq_IZR _ 0) in E. lia.
Qed.
Definition ex_gait {F} {NF : Num F} : list (stamped (sensor F)) :=
  [ex_mag 10 1000; ex_mag 10 1700; ex_mag 10 2400; ex_mag 10 3100; ex_mag 30 3800; ex_mag 10 4500; ex_mag 10 4900].
Example C69_example : regular (ex_gait : list (stamped (sensor SF))) /\ @sane SF nf 7 /\
  saped_count (ex_gait : list (stamped (sensor SF))) = Ok 1.
Proof.
  split; [|split].
  - split; [cbn; lia|]. repeat constructor; discriminate.
  - split; [vm_compute; reflexivity|]. intros i Hi. do 7 (destruct i as [|i]; [vm_compute; reflexivity|]). lia.
  - vm_compute. reflexivity.
Qed.
Example C69_batching_example : let ms := ex_gait : list (stamped (sensor SF)) in
  let bs := [firstn 3 ms; firstn 2 (skipn 3 ms); skipn 5 ms] in
  List.concat bs = List.concat (map (fun m => [m]) ms) /\ warm_up 0 bs = warm_up 0 (map (fun m => [m]) ms) /\
  match saped_run ped0 bs with Ok (_, r) => map (map (@sp_ts SF)) r = [[]; [3800%Z]; []] | _ => False end.
Proof. cbv zeta. split; [reflexivity|]. split; [reflexivity|]. vm_compute. reflexivity. Qed.

(** the first values are examined or not according to the batches *)
Theorem C69_warm_up_refuted : exists (ms : list (stamped (sensor SF))) bs p r q s,
  regular ms /\ List.concat bs = ms /\ saped_run ped0 bs = Ok (p, r) /\ saped_run ped0 (map (fun m => [m]) ms) = Ok (q, s) /\
  List.length (List.concat r) = 1 /\ List.concat s = [].
Proof.
  exists [ex_mag 1 1000; ex_mag 1 1200; ex_mag 20 1400; ex_mag 20 1600], [[ex_mag 1 1000; ex_mag 1 1200; ex_mag 20 1400; ex_mag 20 1600]].
  do 4 eexists. split; [split; [cbn; lia|repeat constructor; discriminate]|]. split; [reflexivity|].
  split; [vm_compute; reflexivity|]. split; [vm_compute; reflexivity|]. split; reflexivity.
Qed.
Print Assumptions C69_warm_up_refuted.

(** 700 ms is the exact limit: at 701 ms every other value is skipped *)
Theorem C69_gap_refuted : exists (ms : list (stamped (sensor SF))) bs p r q s,
  steady 701 (map (@st_ts _) ms) /\ List.concat bs = ms /\ warm_up 0 bs = warm_up 0 (map (fun m => [m]) ms) /\
  saped_run ped0 bs = Ok (p, r) /\ saped_run ped0 (map (fun m => [m]) ms) = Ok (q, s) /\
  List.length (List.concat r) = 1 /\ List.concat s = [].
Proof.
  exists [ex_mag 10 1000; ex_mag 10 1701; ex_mag 10 2402; ex_mag 10 3103; ex_mag 30 3804; ex_mag 30 4505],
    [[ex_mag 10 1000]; [ex_mag 10 1701]; [ex_mag 10 2402]; [ex_mag 10 3103; ex_mag 30 3804]; [ex_mag 30 4505]].
  do 4 eexists. split; [cbn; lia|]. split; [reflexivity|]. split; [reflexivity|].
  split; [vm_compute; reflexivity|]. split; [vm_compute; reflexivity|]. split; reflexivity.
Qed.
Print Assumptions C69_gap_refuted.

(** ** C70: any order of calls *)
(** update with any batches (also empty ones) and calculateSteps, in any order,
    any values and times: no undefined behaviour, steps more than 300 ms apart *)
Theorem C70_safe {F : Type} {NF : Num F} (cs : list (option (list (stamped (sensor F))))) :
  exists p r, saped_calls ped0 cs = Ok (p, r) /\ spaced (-1) (map (@sp_ts F) (List.concat r)).
Proof. exact (@calls_ok F NF cs ped0 (or_introl eq_refl)). Qed.
Print Assumptions C70_safe.

(** a second calculateSteps in a row finds nothing *)
Lemma calls_app {F} {NF : Num F} (cs ds : list (option (list (stamped (sensor F))))) : forall p q r,
  saped_calls p cs = Ok (q, r) -> saped_calls p (cs ++ ds) = '(q2, s) <- saped_calls q ds ;; Ok (q2, r ++ s).
Proof.
  induction cs as [|[b|] t IH]; intros p q r E; cbn [app saped_calls] in *.
  - injection E as <- <-. destruct (saped_calls p ds) as [[q2 s]| | |]; reflexivity.
  - inv_bind E. rewrite Ha. cbn [bind]. eauto.
  - inv_bind E. destruct a as [p1 s1]. inv_bind Hb. destruct a as [p2 r2]. injection Hb0 as <- <-. rewrite Ha. cbn [bind].
    rewrite (IH _ _ _ Ha0). destruct (saped_calls p2 ds) as [[q2 s]| | |]; reflexivity.
Qed.
Lemma calls_size {F} {NF : Num F} (cs : list (option (list (stamped (sensor F))))) : forall p q r, (pd_mags p = [] \/ 1 <= pd_size p) ->
  saped_calls p cs = Ok (q, r) -> pd_mags q = [] \/ 1 <= pd_size q.
Proof.
  induction cs as [|[b|] t IH]; intros p q r Hp E; cbn [saped_calls] in E.
  - injection E as <- _. exact Hp.
  - inv_bind E. unfold saped_update in Ha. match type of Ha with saped_push_all ?x b = _ => destruct (push_all_ok b x) as (p1 & E1 & _ & H2 & _) end.
    rewrite E1 in Ha. injection Ha as <-. cbn [pd_size] in H2. eapply IH; [|exact Hb]. right. lia.
  - inv_bind E. destruct a as [p1 s1]. inv_bind Hb. destruct a as [p2 r2]. injection Hb0 as <- _. eapply IH; [|exact Ha0].
    destruct (Nat.le_gt_cases (List.length (pd_mags p)) 3) as [L|L]; [rewrite steps_few in Ha by exact L; injection Ha as <- _; exact Hp|].
    destruct Hp as [Hp|Hp]; [rewrite Hp in L; cbn in L; lia|]. destruct (@steps_spec F NF p Hp L) as (p1' & E1 & _ & Hs & _).
    cbv zeta in E1. rewrite Ha in E1. injection E1 as <- _. right. lia.
Qed.
Theorem C70_idle {F : Type} {NF : Num F} {NO : NumOrd F} (cs : list (option (list (stamped (sensor F))))) p r :
  (f0 <! (f1 *! fofZ 300 : F)) = true -> saped_calls ped0 (cs ++ [None]) = Ok (p, r) ->
  exists p', saped_calls ped0 (cs ++ [None; None]) = Ok (p', r ++ [[]]).
Proof.
  intros H E. destruct (@calls_ok F NF cs ped0 (or_introl eq_refl)) as (q & s & Eq & _).
  pose proof (@calls_size F NF cs ped0 q s (or_introl eq_refl) Eq) as Hq.
  rewrite (calls_app _ _ _ _ _ Eq) in E. rewrite (calls_app _ _ _ _ _ Eq). cbn [saped_calls] in *.
  destruct (ped_steps q) as [[q1 ss]| | |] eqn:E1; try discriminate E. cbn [bind] in *. injection E as <- <-.
  destruct (@steps_twice F NF NO q q1 ss H Hq E1) as (q2 & E2). rewrite E2. cbn [bind]. exists q2. rewrite <- app_assoc. reflexivity.
Qed.
Print Assumptions C70_idle.

(** the number of steps is limited by the time covered *)
Lemma spaced_count l : forall last lo hi, spaced last l -> Forall (fun t => (lo <= t <= hi)%Z) l -> l <> [] ->
  (301 * (Z.of_nat (List.length l) - 1) <= hi - lo)%Z.
Proof.
  induction l as [|t l IH]; intros last lo hi S H Hne; [congruence|]. destruct l as [|u l].
  - pose proof (Forall_inv H) as H1. cbn in *. lia.
  - cbn [spaced] in S. destruct S as [S1 S2]. pose proof (Forall_inv H) as H1. cbn beta in H1.
    assert (HF : Forall (fun x => (t + 301 <= x <= hi)%Z) (u :: l)).
    { clear IH Hne H1 S1. apply Forall_inv_tail in H. revert t u S2 H. induction l as [|v l IH]; intros t u S2 H.
      - cbn in S2. pose proof (Forall_inv H) as H1. cbn in H1. constructor; [lia|constructor].
      - cbn [spaced] in S2. destruct S2 as [A B]. pose proof (Forall_inv H) as H1. cbn in H1. constructor; [lia|].
        assert (K := IH u v B (Forall_inv_tail H)). eapply Forall_impl; [|exact K]. cbn. intros; lia. }
    specialize (IH t (t + 301)%Z hi S2 HF ltac:(discriminate)). cbn [List.length] in *. lia.
Qed.
Theorem C70_cadence {F : Type} {NF : Num F} (ms : list (stamped (sensor F))) n lo hi :
  Forall (fun m => s_type (st_data m) = ACCELEROMETER) ms -> Forall (fun m => (lo <= st_ts m <= hi)%Z) ms ->
  saped_count ms = Ok n -> n = 0 \/ (301 * (Z.of_nat n - 1) <= hi - lo)%Z.
Proof.
  intros HA HT E. unfold saped_count in E. rewrite run_core in E by exact HA.
  destruct (@ped_run_ok F NF ms ped0 ped0_inv) as (p & r & E' & _ & H1 & H2 & _). rewrite E' in E. cbn [bind] in E. injection E as <-.
  rewrite <- (map_length (@sp_ts F)). set (l := map (@sp_ts F) (List.concat r)) in *.
  destruct l as [|t l'] eqn:El; [left; reflexivity|right]. rewrite <- El in *. eapply spaced_count; [exact H2| |rewrite El; discriminate].
  unfold l. clear -H1 HT. induction H1 as [|m ss ms r [_ H] _ IH]; cbn [List.concat map]; [constructor|]. rewrite map_app. apply Forall_app.
  split; [|exact (IH (Forall_inv_tail HT))]. pose proof (Forall_inv HT) as Hm. cbn in Hm.
  clear -H Hm. induction H as [|s ss Hs _ IH]; cbn; constructor; [rewrite Hs; exact Hm|exact IH].
Qed.
Print Assumptions C70_cadence.

(** a step is lost when two updates come in a row *)
Theorem C70_lost_refuted : exists (b1 b2 : list (stamped (sensor SF))) p r q s,
  regular (b1 ++ b2) /\ saped_calls ped0 [Some b1; None; Some b2; None] = Ok (p, r) /\
  saped_calls ped0 [Some b1; Some b2; None] = Ok (q, s) /\ List.length (List.concat r) = 1 /\ List.concat s = [].
Proof.
  exists (firstn 5 ex_gait), (skipn 5 ex_gait). do 4 eexists.
  split; [split; [cbn; lia|repeat constructor; discriminate]|].
  split; [vm_compute; reflexivity|]. split; [vm_compute; reflexivity|]. split; reflexivity.
Qed.
Print Assumptions C70_lost_refuted.

(** calls in an odd order, times going back, a NaN value *)
Example C70_example : let nan := mkSt (mkSensor ACCELEROMETER (mkV fnan f0 f0)) 1500%Z : stamped (sensor SF) in
  match saped_calls ped0 [None; Some ex_gait; None; None; Some []; Some [nan; ex_mag 10 900]; None] with
  | Ok (_, r) => map (map (@sp_ts SF)) r = [[]; [3800%Z]; []; []] | _ => False end.
Proof. vm_compute. reflexivity. Qed.
Example C70_idle_example : (f0 <! (f1 *! fofZ 300 : SF)) = true /\ match saped_calls ped0 ([Some ex_gait] ++ [None]) with
  | Ok (_, r) => map (map (@sp_ts SF)) r = [[3800%Z]] | _ => False end.
Proof. split; vm_compute; reflexivity. Qed.
Example C70_cadence_example : Forall (fun m => s_type (st_data m) = ACCELEROMETER) (ex_gait : list (stamped (sensor SF))) /\
  Forall (fun m => (1000 <= st_ts m <= 4900)%Z) (ex_gait : list (stamped (sensor SF))).
Proof. split; repeat constructor; cbn; discriminate. Qed.
