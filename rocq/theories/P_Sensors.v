(** C44-C47: orientation filter, pedometer, motion info. *)
From Coq Require Import Reals Lra.
From Verif Require Import Lib NumReal NumFloat LibR SortInst Sensors Spec_Sensors Pf_Angle Pf_Sensors Pf_Cf Pf_Motion Ex.
Local Open Scope string_scope.
Local Open Scope list_scope.
#[local] Existing Instance nf.

(** ** C44: orientation *)
(** every history of real samples, in any order and with any timestamps, keeps
    a unit quaternion; three loop tests are enough for the azimuth *)
Theorem C44_unit (fuel : nat) (k : cfconf RX) gm ga (ms : list (stamped (sensor RX))) :
  (3 <= fuel)%nat -> real_gains k -> Forall real_sample ms ->
  exists c, cf_run fuel k (cf0 gm ga) ms = Ok c /\ exists w x y z, unit_quat (cf_q c) w x y z.
Proof.
  intros Hf Hk H. destruct (@cf_run_good fuel k ms Hf Hk H (cf0 gm ga) (cf0_good gm ga)) as (c & E & G).
  exists c. split; [exact E|exact (cg_q G)].
Qed.
Print Assumptions C44_unit.

(** the Euler angles are those of the rotation: R = Rz(yaw) Ry(pitch) Rx(roll),
    entries of the first column and of the last row *)
Theorem C44_euler (q : quat RX) w x y z : unit_quat q w x y z ->
  exists roll pitch yaw, q_euler q = ((Some roll : RX), (Some pitch : RX), (Some yaw : RX)) /\
    (- PI < roll <= PI)%R /\ (- (PI / 2) <= pitch <= PI / 2)%R /\ (- PI < yaw <= PI)%R /\
    r11 w x y z = (cos pitch * cos yaw)%R /\ r21 w x y z = (cos pitch * sin yaw)%R /\ r31 w x y z = (- sin pitch)%R /\
    r32 w x y z = (cos pitch * sin roll)%R /\ r33 w x y z = (cos pitch * cos roll)%R.
Proof.
  intros [E H]. unfold real_quat in E. rewrite E. destruct (euler_real H) as (r & p & ya & E1 & H1 & H2 & H3 & H4 & H5 & H6 & H7 & H8).
  exists r, p, ya. auto 12.
Qed.
Print Assumptions C44_euler.

(** an accelerometer sample never turns the estimated vertical away from the
    measured one, and turns it closer unless they are parallel *)
Theorem C44_gravity fuel (k : cfconf RX) (c c' : cfilter RX) (m : stamped (sensor RX)) w x y z a b d ka :
  s_type (st_data m) = ACCELEROMETER -> real_vec (s_val (st_data m)) a b d -> (/ IZR (2 ^ 52) < norm3 a b d)%R ->
  unit_quat (cf_q c) w x y z -> k_acc k = (Some ka : RX) -> (0 < ka < 2)%R -> cf_update fuel k c m = Ok c' ->
  exists w' x' y' z', unit_quat (cf_q c') w' x' y' z' /\
  let n := norm3 a b d in let acc := (a / n, b / n, d / n)%R in
  let C := dot3 acc (vertical w x y z) in let C' := dot3 acc (vertical w' x' y' z') in
  (-1 <= C <= 1)%R /\ (-1 <= C' <= 1)%R /\ (C <= C')%R /\ ((-1 < C < 1)%R -> (C < C')%R) /\
  (C' - C = ka * (1 - C * C) * (1 - ka / 2 * C) / (1 + ka * ka / 4 * (1 - C * C)))%R.
Proof. exact (@gravity fuel k c m c' w x y z a b d ka). Qed.
Print Assumptions C44_gravity.

(** the gains the fusion uses *)
Theorem C44_gains (s : settings RX) : real_gains (cf_conf s) /\ exists ka, k_acc (cf_conf s) = (Some ka : RX) /\ (0 < ka < 2)%R.
Proof. split; [exact (conf_real s)|]. exists (1 / 10)%R. unfold cf_conf. cbn [k_acc]. rewrite rx_lit by lra. split; [reflexivity|lra]. Qed.
Print Assumptions C44_gains.

(** gyroscope only, turning about the vertical: the heading is the sum of
    2 atan(rate * dt / 2), modulo a full turn *)
Theorem C44_gyro fuel (k : cfconf RX) gm ga (ms : list (stamped (sensor RX))) (rate : stamped (sensor RX) -> R) :
  Forall (fun m => s_type (st_data m) = GYROSCOPE /\ real_vec (s_val (st_data m)) 0 0 (rate m)) ms ->
  exists c yaw j, cf_run fuel k (cf0 gm ga) ms = Ok c /\ q_yaw (cf_q c) = (Some yaw : RX) /\ (- PI < yaw <= PI)%R /\
    (yaw = 2 * half_turns (-1) ms rate + 2 * PI * IZR j)%R.
Proof.
  intros H. destruct (@gyro_history fuel k ms (cf0 gm ga) 0 rate H) as (c & E & Eq & _).
  - unfold cf0, yaw_quat, q_one. cbn [cf_q]. rewrite cos_0, sin_0. reflexivity.
  - reflexivity.
  - rewrite Rplus_0_l in Eq. destruct (yaw_of_yaw_quat (half_turns (cf_gyro (cf0 gm ga)) ms rate)) as (yaw & j & Ey & R1 & R2).
    exists c, yaw, j. rewrite Eq. auto.
Qed.
Print Assumptions C44_gyro.

(** the magnetic azimuth is the clockwise angle from the field's horizontal
    part to the device's forward axis, freed of the device's yaw *)
Theorem C44_magnetic_azimuth fuel (q : quat RX) w x y z a b c yaw : (3 <= fuel)%nat -> unit_quat q w x y z ->
  (/ IZR (2 ^ 52) < norm3 a b c)%R -> q_yaw q = (Some yaw : RX) ->
  let n := norm3 a b c in
  let X := glob_x w x y z (a / n) (b / n) (c / n) in let Y := glob_y w x y z (a / n) (b / n) (c / n) in
  let u := (cos yaw * X + sin yaw * Y)%R in let v := (- sin yaw * X + cos yaw * Y)%R in
  exists A, magnetic_azimuth fuel q (mkV (Some a : RX) (Some b : RX) (Some c : RX)) = Ok (Some A) /\ (- PI <= A < PI)%R /\
    let h := sqrt (u * u + v * v) in v = (h * cos A)%R /\ u = (- (h * sin A))%R.
Proof.
  intros Hf [E H] Hn Hy. cbv zeta. unfold real_quat in E. rewrite E in *.
  destruct (v_normalized_real a b c) as (a' & b' & c' & EV & HV). destruct (HV Hn) as (A1 & A2 & A3 & _).
  rewrite <- A1, <- A2, <- A3. exact (@magnetic_azimuth_real fuel w x y z a b c Hf H a' b' c' yaw EV Hy).
Qed.
Print Assumptions C44_magnetic_azimuth.

Definition ex_real_sensor (t : stype) (x y z : R) (ts : Z) : stamped (sensor RX) :=
  mkSt (mkSensor t (mkV (Some x : RX) (Some y : RX) (Some z : RX))) ts.
Example C44_example : Forall real_sample
    [ex_real_sensor ACCELEROMETER 0 3 9 1000; ex_real_sensor MAGNETOMETER 20 0 (-40) 1010; ex_real_sensor GYROSCOPE 0 1 2 900]
  /\ real_gains (cf_conf (ex_settings_lv [] false false KNN false 1%nat true false false : settings RX)).
Proof. split; [|apply C44_gains]. repeat constructor; do 3 eexists; reflexivity. Qed.
(** tilted by a quarter turn: cosine 0, so the update is strict *)
Example C44_gravity_example : let m := ex_real_sensor ACCELEROMETER 0 1 0 5 in
  real_vec (s_val (st_data m)) 0 1 0 /\ (/ IZR (2 ^ 52) < norm3 0 1 0)%R /\
  dot3 (0 / norm3 0 1 0, 1 / norm3 0 1 0, 0 / norm3 0 1 0)%R (vertical 1 0 0 0) = 0%R /\
  unit_quat (mkQ (Some 1%R : RX) (Some 0%R : RX) (Some 0%R : RX) (Some 0%R : RX)) 1 0 0 0.
Proof.
  assert (E : norm3 0 1 0 = 1%R). { unfold norm3. replace (0 * 0 + 1 * 1 + 0 * 0)%R with 1%R by ring. apply sqrt_1. }
  cbv zeta. split; [reflexivity|]. rewrite E. split; [apply feps_small|]. split; [unfold dot3, vertical, r31, r32, r33; field|].
  split; [reflexivity|ring].
Qed.
Example C44_gyro_example : let m := ex_real_sensor GYROSCOPE 0 0 1 in
  Forall (fun m => s_type (st_data m) = GYROSCOPE /\ real_vec (s_val (st_data m)) 0 0 ((fun _ => 1%R) m)) [m 1000%Z; m 1500%Z; m 1200%Z]
  /\ half_turns (-1) [m 1000%Z; m 1500%Z; m 1200%Z] (fun _ => 1%R) = (atan (1 / 4) + atan (- (3 / 20)))%R.
Proof.
  cbv zeta. split; [repeat constructor|]. cbn [half_turns Z.eqb ex_real_sensor st_ts]. change (1000 - 1000)%Z with 0%Z.
  change (1500 - 1000)%Z with 500%Z. change (1200 - 1500)%Z with (-300)%Z. cbn.
  replace (1 * (0 / 1000) / 2)%R with 0%R by field. rewrite atan_0.
  replace (1 * (500 / 1000) / 2)%R with (1 / 4)%R by field. replace (1 * (-300 / 1000) / 2)%R with (- (3 / 20))%R by field. ring.
Qed.
Example C44_azimuth_example : (/ IZR (2 ^ 52) < norm3 0 1 0)%R /\ exists yaw, q_yaw (q_one : quat RX) = (Some yaw : RX).
Proof.
  assert (E : norm3 0 1 0 = 1%R). { unfold norm3. replace (0 * 0 + 1 * 1 + 0 * 0)%R with 1%R by ring. apply sqrt_1. }
  rewrite E. split; [apply feps_small|]. exists (Ratan2 (2 * (1 * 0 + 0 * 0)) (1 - 2 * (0 * 0 + 0 * 0)))%R. exact (yaw_real 1 0 0 0).
Qed.

(** ** C45: pedometer *)
(** any number type, any values (NaN included), any timestamps *)
Theorem C45_safe {F} {NF : Num F} (ms : list (stamped (sensor F))) : exists p r, ped_run ped0 ms = Ok (p, r).
Proof. destruct (@ped_run_ok F NF ms ped0 ped0_inv) as (p & r & E & _). eauto. Qed.
Print Assumptions C45_safe.

(** at most one step per sample, carrying its time; steps more than 300 ms
    apart, the first later than 299; the stored durations fit an int sum *)
Theorem C45_steps {F} {NF : Num F} (ms : list (stamped (sensor F))) p r : ped_run ped0 ms = Ok (p, r) ->
  Forall2 (fun m ss => (List.length ss <= 1)%nat /\ Forall (fun s => sp_ts s = st_ts m) ss) ms r /\
  spaced (-1) (map (@sp_ts F) (List.concat r)) /\
  (List.length (pd_times p) <= 50)%nat /\ Forall (fun t => (300 < t < 2000)%Z) (pd_times p).
Proof.
  intros E. destruct (@ped_run_ok F NF ms ped0 ped0_inv) as (p' & r' & E' & I & H1 & H2 & _). rewrite E in E'. injection E' as <- <-.
  repeat split; auto; [exact (pi_count I)|exact (pi_times I)].
Qed.
Print Assumptions C45_steps.

Theorem C45_windows {F} {NF : Num F} (ms : list (stamped (sensor F))) p r :
  non_decreasing (map (@st_ts _) ms) -> ped_run ped0 ms = Ok (p, r) ->
  (forall y, back (pd_acc p) = Some y -> Forall (fun x => (0 <= st_ts y - st_ts x <= 5000)%Z) (pd_acc p)) /\
  ((3 < List.length (pd_mags p))%nat ->
   forall y, back (pd_mags p) = Some y -> Forall (fun x => (0 <= mg_ts y - mg_ts x <= 1400)%Z) (pd_mags p)).
Proof. exact (@ped_windows F NF ms p r). Qed.
Print Assumptions C45_windows.

(** the signal: mean over the last 200 ms minus the (off by one) mean over the
    last 2500 ms, straight from the raw history *)
Theorem C45_signal (ms : list (stamped (sensor RX))) m p r p1 :
  non_decreasing (map (@st_ts _) (ms ++ [m])) -> Forall real_sample (ms ++ [m]) ->
  s_type (st_data m) = ACCELEROMETER -> st_ts m <> 0%Z ->
  ped_run ped0 ms = Ok (p, r) -> ped_update p m = Ok p1 ->
  let wide := acc_within (st_ts m) 2500 (ms ++ [m]) in let narrow := acc_within (st_ts m) 200 (ms ++ [m]) in
  let mean l := (rsum l / INR (List.length l))%R in
  pd_mags p1 = pd_mags p ++
    [mkMagn (st_ts m) (Some (mean narrow - (rsum wide + mean narrow) / INR (List.length wide)) : RX)%R].
Proof. exact (@signal_history ms m p r p1). Qed.
Print Assumptions C45_signal.

(** a step is reported exactly when the signal crosses 0.05 g upwards, at
    least four values are stored and the last step is over 300 ms old *)
Theorem C45_detection (ms : list (stamped (sensor RX))) m p r p1 p2 ss :
  Forall real_sample (ms ++ [m]) -> ped_run ped0 ms = Ok (p, r) -> ped_update p m = Ok p1 -> ped_steps p1 = Ok (p2, ss) ->
  (ss <> [] <-> exists l prev cur a b, pd_mags p = l ++ [prev] /\ pd_mags p1 = l ++ [prev; cur] /\ (2 <= List.length l)%nat /\
     mg_val prev = (Some a : RX) /\ mg_val cur = (Some b : RX) /\ (a < 0.05 * 9.80665 < b)%R /\
     (List.last (map (@sp_ts RX) (List.concat r)) (-1) + 300 < st_ts m)%Z /\ mg_ts cur = st_ts m).
Proof.
  intros HR E U S. apply Forall_app in HR as [H1 H2].
  destruct (@ped_run_ok RX num_real ms ped0 ped0_inv) as (p' & r' & E' & _ & _ & _ & HL). rewrite E in E'. injection E' as <- <-.
  cbn [ped0 pd_possible] in HL. rewrite <- HL.
  assert (T : (0.05 * 9.80665)%R = threshold) by (unfold threshold; lra). rewrite T.
  apply (@detection p m p1 p2 ss); auto.
  - eapply run_real; [exact ped0_real|exact H1|exact E].
  - exact (Forall_inv H2).
  - unfold ped_step. rewrite U. exact S.
Qed.
Print Assumptions C45_detection.

(** a device whose accelerometer always shows the same magnitude takes no steps *)
Theorem C45_at_rest (ms : list (stamped (sensor RX))) p r c : (0 <= c)%R -> Forall real_sample ms ->
  Forall (fun m => is_acc m = true -> mag_of m = c) ms -> ped_run ped0 ms = Ok (p, r) -> List.concat r = [].
Proof.
  intros Hc H1 H2 E. eapply (@rest_run ms ped0 p r c); auto; [exact ped0_real|]. split; constructor.
Qed.
Print Assumptions C45_at_rest.

(** five samples 200 ms apart, the last one stronger *)
Definition ex_walk {F} {NF : Num F} : list (stamped (sensor F)) :=
  [ex_sensor ACCELEROMETER 0 0 10 1000; ex_sensor ACCELEROMETER 0 0 10 1200; ex_sensor ACCELEROMETER 0 0 10 1400;
   ex_sensor ACCELEROMETER 0 0 10 1600; ex_sensor ACCELEROMETER 0 0 20 1800].
Example C45_example : match ped_run ped0 (ex_walk : list (stamped (sensor SF))) with
  | Ok (p, r) => map (map (@sp_ts SF)) r = [[]; []; []; []; [1800%Z]] /\ (3 < List.length (pd_mags p))%nat
  | _ => False end.
Proof. vm_compute. split; [reflexivity|repeat constructor]. Qed.
(** decreasing timestamps *)
Example C45_backwards : exists p r, ped_run ped0 (rev (ex_walk : list (stamped (sensor SF)))) = Ok (p, r) /\ List.length (pd_acc p) = 5%nat.
Proof. do 2 eexists. split; vm_compute; reflexivity. Qed.
Example C45_sorted_example : non_decreasing (map (@st_ts _) (ex_walk : list (stamped (sensor RX)))) /\
  Forall real_sample (ex_walk : list (stamped (sensor RX))).
Proof.
  split; [apply nondec_sorted; repeat constructor; cbn; lia|]. repeat constructor; do 3 eexists; reflexivity.
Qed.
Example C45_rest_example : Forall (fun m => is_acc m = true -> mag_of m = 10%R)
  [ex_real_sensor ACCELEROMETER 0 0 10 1000; ex_real_sensor ACCELEROMETER 6 0 8 900; ex_real_sensor GYROSCOPE 0 0 1 900].
Proof.
  repeat constructor; intros H; try discriminate H; unfold mag_of, ex_real_sensor, norm3; cbn [st_data s_val].
  - replace (0 * 0 + 0 * 0 + 10 * 10)%R with (10 * 10)%R by ring. apply sqrt_square; lra.
  - replace (6 * 6 + 0 * 0 + 8 * 8)%R with (10 * 10)%R by ring. apply sqrt_square; lra.
Qed.

(** ** C46: step length *)
(** 0.52 times the fourth root of the range of the signal over the values
    before the crossing, back to and including the first one over 700 ms old *)
Theorem C46_length (ms : list (stamped (sensor RX))) m p r p1 p2 ss s :
  Forall real_sample (ms ++ [m]) -> ped_run ped0 ms = Ok (p, r) -> ped_update p m = Ok p1 -> ped_steps p1 = Ok (p2, ss) ->
  In s ss ->
  exists win rest oldest M n L, rev (pd_mags p) = win ++ oldest :: rest /\
    Forall (fun x => (st_ts m - mg_ts x <= 700)%Z) win /\ (rest = [] \/ (700 < st_ts m - mg_ts oldest)%Z) /\
    (exists x, In x (win ++ [oldest]) /\ mg_val x = (Some M : RX)) /\ (exists x, In x (win ++ [oldest]) /\ mg_val x = (Some n : RX)) /\
    (forall x v, In x (win ++ [oldest]) -> mg_val x = (Some v : RX) -> (n <= v <= M)%R) /\
    s = mkStep (st_ts m) (Some L : RX) /\ (0 <= L)%R /\ (L ^ 4 = 0.52 ^ 4 * (M - n))%R.
Proof.
  intros HR E U S Hs. apply Forall_app in HR as [H1 H2].
  assert (HP : ped_real p) by (eapply run_real; [exact ped0_real|exact H1|exact E]).
  destruct (ped_step_spec p m) as (p1' & p2' & ss' & U' & E2 & _ & _ & HS). rewrite U in U'. injection U' as <-.
  unfold ped_step in E2. rewrite U in E2. cbn [bind] in E2. rewrite S in E2. injection E2 as <- <-.
  destruct HS as [(_ & -> & _)|(_ & _ & [(-> & _)|(l & prev & cur & Em & Em1 & Hc & _ & -> & _)])]; [destruct Hs..|destruct Hs as [<-|[]]].
  rewrite Em in *. 
  destruct (@step_length_real cur (rev (l ++ [prev]))) as (win & rest & old & M & n & L & Q1 & Q2 & Q3 & Q4 & Q5 & Q6 & Q7 & Q8 & Q9).
  - intros EE. apply (f_equal (@List.length _)) in EE. rewrite rev_length, app_length in EE. cbn in EE. lia.
  - apply Forall_rev. rewrite <- Em. exact (pr_mags HP).
  - rewrite Hc in *. exists win, rest, old, M, n, L. rewrite Q7.
    split; [exact Q1|]. split; [exact Q2|]. split; [exact Q3|]. split; [exact Q4|]. split; [exact Q5|]. split; [exact Q6|].
    split; [reflexivity|]. split; [exact Q8|]. rewrite Q9. reflexivity.
Qed.
Print Assumptions C46_length.

Example C46_example : match ped_run ped0 (ex_walk : list (stamped (sensor SF))) with
  | Ok (_, r) => match List.concat r with [s] => (lit 86 100 <! sp_len s) = true /\ (sp_len s <! lit 87 100) = true | _ => False end
  | _ => False end.
Proof. vm_compute. split; reflexivity. Qed.

(** ** C47: motion info *)
Theorem C47_motion {F} {NF : Num F} fuel (s : settings F) gm ga ms f os : sf_run fuel s (sf0 gm ga) ms = Ok (f, os) ->
  List.length os = List.length ms /\ motions_ok 0 f0 (combine (map snd ms) os) /\
  exists p r, ped_run ped0 (map fst ms) = Ok (p, r) /\
    map (@mi_step F) os = map (fun ss => match ss with [] => false | _ => true end) r.
Proof.
  intros E. destruct (@sf_run_ok F NF fuel s ms (sf0 gm ga) f os ped0_inv E) as [H1 H2].
  destruct (sf_run_ped _ _ _ _ E) as (r & H3 & H4). repeat split; auto. exists (sf_ped f), r. auto.
Qed.
Print Assumptions C47_motion.

(** real samples: never a failure, distances and headings are numbers *)
Theorem C47_defined fuel (s : settings RX) gm ga ms k : (3 <= fuel)%nat -> s_stepmult s = (Some k : RX) -> (0 <= k)%R ->
  Forall real_sample (map fst ms) -> exists f os, sf_run fuel s (sf0 gm ga) ms = Ok (f, os) /\
  Forall (fun o => (exists d, mi_dist o = (Some d : RX) /\ (0 <= d)%R) /\ (exists h, mi_head o = (Some h : RX) /\ (- PI < h <= PI)%R) /\
    (exists a, mi_dangle o = (Some a : RX))) os.
Proof.
  intros Hf Hk Hk0 H. destruct (@sf_run_good fuel s k ms Hf Hk Hk0 H (sf0 gm ga) (sf0_good gm ga)) as (f & os & E & _ & Ho). eauto.
Qed.
Print Assumptions C47_defined.

(** the device azimuth is valid while its last sample is young enough *)
Theorem C47_azimuth fuel (s : settings RX) gm ga ms m ts f os o (life : R) :
  s_calcaz s = false -> s_azlife s = (Some life : RX) ->
  sf_run fuel s (sf0 gm ga) (ms ++ [(m, ts)]) = Ok (f, os ++ [o]) ->
  (mi_azvalid o = true <-> exists x, last_orientation (map fst ms ++ [m]) = Some x /\ st_ts x <> (-1)%Z /\
     (IZR (st_ts m - st_ts x) / 1000 <= life)%R) /\
  (mi_azvalid o = true -> forall x, last_orientation (map fst ms ++ [m]) = Some x -> mi_azim o = vx (s_val (st_data x))) /\
  (mi_azvalid o = false -> mi_azim o = f0).
Proof. exact (@azimuth_valid fuel s gm ga ms m ts f os o life). Qed.
Print Assumptions C47_azimuth.

(** the reported counter falls back to 0 after a step *)
Definition ex_motion {F} {NF : Num F} : list (stamped (sensor F) * Z) :=
  map (fun m => (m, st_ts m)) (ex_walk ++ [ex_sensor ORIENTATION 1 0 0 1850; ex_sensor ACCELEROMETER 0 0 20 2000]).
Definition ex_zero : stamped (sensor SF) := ex_sensor ACCELEROMETER 0 0 0 0.
Theorem C47_monotone_counter_refuted : exists (s : settings SF) ms f os i j a b,
  sf_run 3 s (sf0 ex_zero ex_zero) ms = Ok (f, os) /\ (i < j)%nat /\ nth_error os i = Some a /\ nth_error os j = Some b /\
  (mi_count b < mi_count a)%Z.
Proof.
  exists (ex_zones false), ex_motion. do 2 eexists. exists 4%nat, 5%nat. do 2 eexists.
  split; [vm_compute; reflexivity|]. split; [repeat constructor|].
  split; [vm_compute; reflexivity|]. split; [vm_compute; reflexivity|]. vm_compute. reflexivity.
Qed.
Print Assumptions C47_monotone_counter_refuted.

Example C47_example : match sf_run 3 (ex_zones false) (sf0 ex_zero ex_zero) ex_motion with
  | Ok (_, os) => map (@mi_step SF) os = [false; false; false; false; true; false; false] /\
      map (@mi_azvalid SF) os = [false; false; false; false; false; true; true] /\
      map (@mi_lastTs SF) os = [0; 0; 0; 0; 1800; 0; 0]%Z
  | _ => False end.
Proof. vm_compute. repeat split. Qed.
Example C47_real_example : Forall real_sample (map fst (ex_motion : list (stamped (sensor RX) * Z))) /\
  s_stepmult (ex_zones false : settings RX) = (Some 1%R : RX) /\ s_calcaz (ex_zones false : settings RX) = false.
Proof. split; [|auto]. repeat constructor; do 3 eexists; reflexivity. Qed.
