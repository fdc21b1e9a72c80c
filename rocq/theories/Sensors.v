(** Vectors, quaternions, complementary filter, pedometer, sensor fusion.
    Models src/vector3d.cpp, src/sensor_fusion/*. *)
From Verif Require Export Types.
Set Implicit Arguments.

(** sensor_fusion/quaternion.h:20-28 *)
Record quat (F : Type) := mkQ { qw : F; qx : F; qy : F; qz : F }.

(** complementary_filter.h:36-43, 60-63: gains and lifetime *)
Record cfconf (F : Type) := mkCfc { k_acc : F; k_mag : F; k_int : F; k_life : F }.

(** complementary_filter.h:57-70; cf_magn and cf_acc are the low-passed
    measurements, whose type and timestamp start uninitialised *)
Record cfilter (F : Type) := mkCF {
  cf_cur : Z; cf_gyro : Z; cf_devts : Z; cf_interr : vec3 F; cf_q : quat F;
  cf_magaz : F; cf_devaz : F; cf_gyroh : F;
  cf_magn : stamped (sensor F); cf_acc : stamped (sensor F) }.

(** pedometer.h:18-33 *)
Record step (F : Type) := mkStep { sp_ts : Z; sp_len : F }.
Record magnitude (F : Type) := mkMagn { mg_ts : Z; mg_val : F }.

(** pedometer.h:52-61; mIsStep is false between calls and is a local here *)
Record pedometer (F : Type) := mkPed {
  pd_acc : list (stamped (sensor F)); pd_mags : list (magnitude F); pd_times : list Z;
  pd_size : nat; pd_possible : Z; pd_steptime : Z }.

(** sensor_fusion.h:29-34 *)
Record sfusion (F : Type) := mkSF {
  sf_cf : cfilter F; sf_ped : pedometer F; sf_steps : Z; sf_prevhead : F }.

Section Sensors.
Context {F : Type} {NF : Num F}.

(** * Vector3d (vector3d.cpp, vector3d.h) *)
(** vector3d.cpp:24-27 *)
Definition v_mag (v : vec3 F) : F := fsqrt (vx v *! vx v +! vy v *! vy v +! vz v *! vz v).
(** vector3d.cpp:29-35 *)
Definition v_normalized (v : vec3 F) : vec3 F :=
  let len := v_mag v in
  if feps <! fabs len then mkV (vx v /! len) (vy v /! len) (vz v /! len) else v.
(** vector3d.h:42-50 *)
Definition v_scale (k : F) (v : vec3 F) : vec3 F := mkV (vx v *! k) (vy v *! k) (vz v *! k).
(** vector3d.h:52-55 *)
Definition v_add (a b : vec3 F) : vec3 F := mkV (vx a +! vx b) (vy a +! vy b) (vz a +! vz b).
(** vector3d.cpp:100-105 *)
Definition v_cross (a b : vec3 F) : vec3 F :=
  mkV (vy a *! vz b -! vz a *! vy b)
      (vz a *! vx b -! vx a *! vz b)
      (vx a *! vy b -! vy a *! vx b).
Definition v0 : vec3 F := mkV f0 f0 f0.

(** * Quaternion (quaternion.cpp) *)
Definition q_one : quat F := mkQ f1 f0 f0 f0.
(** quaternion.cpp:21-23 *)
Definition q_of_vec (v : vec3 F) : quat F := mkQ f0 (vx v) (vy v) (vz v).
(** quaternion.cpp:25-32 *)
Definition q_norm (q : quat F) : F :=
  fsqrt (qw q *! qw q +! qx q *! qx q +! qy q *! qy q +! qz q *! qz q).
Definition q_normalized (q : quat F) : quat F :=
  let n := q_norm q in
  if feps <! fabs n then mkQ (qw q /! n) (qx q /! n) (qy q /! n) (qz q /! n) else q.
(** quaternion.h:36-37 *)
Definition q_conj (q : quat F) : quat F := mkQ (qw q) (fopp (qx q)) (fopp (qy q)) (fopp (qz q)).
Definition q_vec (q : quat F) : vec3 F := mkV (qx q) (qy q) (qz q).
(** quaternion.cpp:54-61 *)
Definition q_add (a b : quat F) : quat F :=
  mkQ (qw a +! qw b) (qx a +! qx b) (qy a +! qy b) (qz a +! qz b).
(** quaternion.cpp:72-79 *)
Definition q_scale (a : quat F) (k : F) : quat F :=
  mkQ (qw a *! k) (qx a *! k) (qy a *! k) (qz a *! k).
(** quaternion.cpp:81-89 *)
Definition q_mul (a b : quat F) : quat F :=
  mkQ (qw a *! qw b -! qx a *! qx b -! qy a *! qy b -! qz a *! qz b)
      (qw a *! qx b +! qx a *! qw b +! qy a *! qz b -! qz a *! qy b)
      (qw a *! qy b -! qx a *! qz b +! qy a *! qw b +! qz a *! qx b)
      (qw a *! qz b +! qx a *! qy b -! qy a *! qx b +! qz a *! qw b).
(** quaternion.cpp:34-52 toEuler: roll, pitch, yaw *)
Definition q_euler (q : quat F) : F * F * F :=
  let sinr := fofZ 2 *! (qw q *! qx q +! qy q *! qz q) in
  let cosr := f1 -! fofZ 2 *! (qx q *! qx q +! qy q *! qy q) in
  let roll := fatan2 sinr cosr in
  let sinp := fofZ 2 *! (qw q *! qy q -! qz q *! qx q) in
  let pitch := if f1 <=! fabs sinp then fcopysign (fpi /! fofZ 2) sinp else fasin sinp in
  let siny := fofZ 2 *! (qw q *! qz q +! qx q *! qy q) in
  let cosy := f1 -! fofZ 2 *! (qy q *! qy q +! qz q *! qz q) in
  (roll, pitch, fatan2 siny cosy).
Definition q_yaw (q : quat F) : F := snd (q_euler q).

(** * Angles *)
(** complementary_filter.cpp:20 first loop, one unit of fuel per test *)
Fixpoint mpp_down (fuel : nat) (x : F) : res F :=
  match fuel with
  | O => OutOfFuel
  | S n => if fpi <=! x then mpp_down n (x -! fofZ 2 *! fpi) else Ok x
  end.
(** complementary_filter.cpp:21 second loop *)
Fixpoint mpp_up (fuel : nat) (x : F) : res F :=
  match fuel with
  | O => OutOfFuel
  | S n => if x <! fopp fpi then mpp_up n (x +! fofZ 2 *! fpi) else Ok x
  end.
(** complementary_filter.cpp:18-23 to_minus_Pi_Pi *)
Definition to_mpp (fuel : nat) (x : F) : res F := y <- mpp_down fuel x ;; mpp_up fuel y.

(** * Complementary filter *)
Definition cf_eps : F := lit 1 100000000.

(** complementary_filter.cpp:25-30 updateQuaternion *)
Definition update_quaternion (q : quat F) (v : vec3 F) : quat F :=
  q_normalized (q_add q (q_scale (q_mul q (q_of_vec v)) (lit 5 10))).

(** complementary_filter.cpp:32-41 lowPassFilter *)
Definition low_pass (prev cur : stamped (sensor F)) : stamped (sensor F) :=
  let dt := fofZ (st_ts cur - st_ts prev) /! fofZ 1000 in
  let alpha := f1 /! (f1 +! fmax dt (lit 2 100)) in
  mkSt (mkSensor (s_type (st_data cur))
          (v_add (v_scale alpha (s_val (st_data prev)))
                 (v_scale (f1 -! alpha) (s_val (st_data cur))))) (st_ts cur).

(** complementary_filter.cpp:140, 158 *)
Definition int_error (k : cfconf F) (e : vec3 F) (err : vec3 F) : vec3 F :=
  v_add e (if cf_eps <! k_int k then v_scale (k_int k) err else v0).

(** complementary_filter.cpp:132-141 updateUsingAccelerometer *)
Definition acc_error (q : quat F) (v : vec3 F) : vec3 F :=
  let acc := v_normalized v in
  let grav := q_vec (q_mul (q_mul (q_conj q) (mkQ f0 f0 f0 f1)) q) in
  v_cross acc grav.
(** complementary_filter.cpp:149-154 *)
Definition mag_error (q : quat F) (magn : vec3 F) : vec3 F :=
  let g := q_vec (q_mul (q_mul q (q_of_vec magn)) (q_conj q)) in
  let g := mkV f0 (fsqrt (vy g *! vy g +! vx g *! vx g)) (vz g) in
  let s := q_vec (q_mul (q_mul (q_conj q) (q_of_vec g)) q) in
  v_cross magn s.

(** complementary_filter.cpp:161-174 calculateMagneticAzimuth *)
Definition magnetic_azimuth (fuel : nat) (q : quat F) (v : vec3 F) : res F :=
  let half := q_yaw q /! fofZ 2 in
  let qd := q_normalized (mkQ (fsin half) f0 f0 (fcos half)) in
  let q0 := q_mul qd q in
  let magn := v_normalized v in
  let g := q_vec (q_mul (q_mul q0 (q_of_vec magn)) (q_conj q0)) in
  to_mpp fuel (fpi /! fofZ 2 +! fatan2 (vy g) (vx g)).

(** complementary_filter.cpp:53-58 getFusedAzimuth *)
Definition fused_azimuth (c : cfilter F) : F := fopp (q_yaw (cf_q c)).

(** complementary_filter.h:57-70 initial state; [gm], [ga] are whatever the
    uninitialised low-pass members contain *)
Definition cf0 (gm ga : stamped (sensor F)) : cfilter F :=
  mkCF (-1) (-1) (-1) v0 q_one f0 f0 f0 gm ga.

(** complementary_filter.cpp:79-112 update *)
Definition cf_update (fuel : nat) (k : cfconf F) (c : cfilter F) (m : stamped (sensor F)) : res (cfilter F) :=
  let v := s_val (st_data m) in
  let ts := st_ts m in
  match s_type (st_data m) with
  | ACCELEROMETER =>
      let err := acc_error (cf_q c) v in
      Ok (mkCF ts (cf_gyro c) (cf_devts c) (int_error k (cf_interr c) err)
            (update_quaternion (cf_q c) (v_scale (k_acc k) err))
            (cf_magaz c) (cf_devaz c) (cf_gyroh c) (cf_magn c) (low_pass (cf_acc c) m))
  | MAGNETOMETER =>
      let magn := v_normalized v in
      let '(q, ie) :=
        if (cf_gyro c =? -1)%Z then
          if v_mag magn <! cf_eps then (cf_q c, cf_interr c)
          else
            let err := mag_error (cf_q c) magn in
            (update_quaternion (cf_q c) (v_scale (k_mag k) err), int_error k (cf_interr c) err)
        else (cf_q c, cf_interr c) in
      az <- magnetic_azimuth fuel q v ;;
      Ok (mkCF ts (cf_gyro c) (cf_devts c) ie q az (cf_devaz c) (cf_gyroh c)
            (low_pass (cf_magn c) m) (cf_acc c))
  | GYROSCOPE =>
      let last := if (cf_gyro c =? -1)%Z then ts else cf_gyro c in
      let dt := fofZ (ts - last) /! fofZ 1000 in
      let omega := v_add (v_scale dt v) (v_scale dt (cf_interr c)) in
      let q := update_quaternion (cf_q c) omega in
      Ok (mkCF ts ts (cf_devts c) (cf_interr c) q (cf_magaz c) (cf_devaz c) (fopp (q_yaw q))
            (cf_magn c) (cf_acc c))
  | ORIENTATION =>
      Ok (mkCF ts (cf_gyro c) ts (cf_interr c) (cf_q c) (cf_magaz c) (vx v) (cf_gyroh c)
            (cf_magn c) (cf_acc c))
  | _ =>
      Ok (mkCF ts (cf_gyro c) (cf_devts c) (cf_interr c) (cf_q c) (cf_magaz c) (cf_devaz c)
            (cf_gyroh c) (cf_magn c) (cf_acc c))
  end.

(** complementary_filter.cpp:114-121 isDeviceAzimuthOutdated *)
Definition azimuth_outdated (k : cfconf F) (c : cfilter F) : bool :=
  (k_life k <! (fofZ (cf_cur c - cf_devts c) /! fofZ 1000)) || (cf_devts c =? -1)%Z.

(** * Pedometer *)
Definition ped0 : pedometer F := mkPed [] [] [] 0 (-1) (-1).

(** An iterator advanced (or a front element popped) while the condition
    holds of the element; running off the end is undefined behaviour. *)
Fixpoint skip_while {A : Type} (c : A -> bool) (l : list A) : res (list A) :=
  match l with
  | [] => UB
  | x :: t => if c x then skip_while c t else Ok l
  end.

Definition sum_mag (l : list (stamped (sensor F))) : F := fsum (fun m => v_mag (s_val (st_data m))) l.

(** pedometer.cpp:77-109 calculateFilteredAccMagnitudes; [last] is the
    timestamp of the newest element *)
Definition filtered_magnitude (acc : list (stamped (sensor F))) (last : Z) : res (magnitude F) :=
  a <- skip_while (fun m => (2500 <=? last - st_ts m)%Z) acc ;;
  f <- skip_while (fun m => (200 <=? last - st_ts m)%Z) acc ;;
  let na := fofnat (List.length a) in
  let nf := fofnat (List.length f) in
  if (na =! f0) || (nf =! f0) then Ok (mkMagn 0 f0)
  else
    let fm := sum_mag f /! nf in
    let am := (sum_mag a +! fm) /! na in
    Ok (mkMagn last (fm -! am)).

(** pedometer.cpp:41-70 update *)
Definition ped_update (p : pedometer F) (m : stamped (sensor F)) : res (pedometer F) :=
  let size := Nat.max (List.length (pd_mags p)) 1 in
  match s_type (st_data m) with
  | ACCELEROMETER =>
      let acc := pd_acc p ++ [m] in
      g <- filtered_magnitude acc (st_ts m) ;;
      let mags := if (mg_ts g =? 0)%Z then pd_mags p else pd_mags p ++ [g] in
      acc <- skip_while (fun x => (2 * 2500 <? st_ts m - st_ts x)%Z) acc ;;
      Ok (mkPed acc mags (pd_times p) size (pd_possible p) (pd_steptime p))
  | _ => Ok (mkPed (pd_acc p) (pd_mags p) (pd_times p) size (pd_possible p) (pd_steptime p))
  end.

(** pedometer.cpp:170-173: the range [left, right) going backwards from the
    element before the right border *)
Fixpoint step_window (rts : Z) (before : list (magnitude F)) : list (magnitude F) :=
  match before with
  | [] => []
  | m :: t => m :: (if (rts - mg_ts m <=? 700)%Z then step_window rts t else [])
  end.

(** pedometer.cpp:167-185 calculateStepLength; [before] are the magnitudes
    preceding the right border, newest first.  On an empty range
    std::max_element returns the right border itself. *)
Definition step_length (right : magnitude F) (before : list (magnitude F)) : F :=
  let lt a b := mg_val a <! mg_val b in
  let '(mx, mn) :=
    match rev (step_window (mg_ts right) before) with
    | [] => (right, right)
    | m :: t => (max_elem_from lt m t, min_elem_from lt m t)
    end in
  lit 52 100 *! fsqrt (fsqrt (mg_val mx -! mg_val mn)).

(** pedometer.cpp:35 *)
Definition min_threshold : F := lit 5 100 *! lit 980665 100000.

(** pedometer.cpp:117-125 timeBetweenSteps *)
Definition time_between (times : list Z) : F :=
  let n := Z.max (Z.of_nat (List.length times)) 1 in
  let avg := (if (5 <=? n)%Z then fold_left Z.add times 0 else 0)%Z in
  fmax (f1 *! fofZ 300) (lit 6 10 *! fofZ (Z.quot avg n)).

(** loop state of pedometer.cpp:127-156: possible, stepTime, times, steps *)
Definition ped_loop_state : Type := Z * Z * list Z * list (step F).

(** pedometer.cpp:129-155 body for index [i]; mIsStep is false on entry *)
Definition ped_body (mags : list (magnitude F)) (tb : F) (acc : res ped_loop_state) (i : nat) :
    res ped_loop_state :=
  '(possible, steptime, times, steps) <- acc ;;
  match i with
  | O => UB
  | S j =>
      match nth_error mags i, nth_error mags j with
      | Some cur, Some prev =>
          if (mg_val prev <! min_threshold) && (min_threshold <! mg_val cur)
             && (300 <? mg_ts cur - possible)%Z && (f0 <! tb)
          then
            let possible := mg_ts cur in
            let len := step_length cur (rev (firstn i mags)) in
            let times := if (possible - steptime <? 2000)%Z
                         then times ++ [possible - steptime]%Z else times in
            Ok (possible, possible, times, steps ++ [mkStep possible len])
          else Ok (possible, steptime, times, steps)
      | _, _ => UB
      end
  end.

(** pedometer.cpp:111-165 calculateSteps *)
Definition ped_steps (p : pedometer F) : res (pedometer F * list (step F)) :=
  let mags := pd_mags p in
  let n := List.length mags in
  if Nat.leb n 3 then Ok (p, [])
  else
    let tb := time_between (pd_times p) in
    '(possible, steptime, times, steps) <-
      fold_left (ped_body mags tb) (seq (pd_size p) (n - pd_size p))
        (Ok (pd_possible p, pd_steptime p, pd_times p, [])) ;;
    let last := match back mags with Some m => mg_ts m | None => 0%Z end in
    mags <- skip_while (fun m => (2 * 700 <? last - mg_ts m)%Z) mags ;;
    let times := skipn (List.length times - 50) times in
    Ok (mkPed (pd_acc p) mags times (pd_size p) possible steptime, steps).

(** * Sensor fusion *)
(** sensor_fusion.cpp:9-15 *)
Definition cf_conf (s : settings F) : cfconf F :=
  mkCfc (lit 1 10) (lit 5 100) f0 (s_azlife s).
Definition sf0 (gm ga : stamped (sensor F)) : sfusion F := mkSF (cf0 gm ga) ped0 0 f0.

(** sensor_fusion.cpp:17-53 calculateDisplacement *)
Definition sf_step (fuel : nat) (s : settings F) (sf : sfusion F) (m : stamped (sensor F)) (ts : Z) :
    res (sfusion F * motion F) :=
  ped <- ped_update (sf_ped sf) m ;;
  '(ped, steps) <- ped_steps ped ;;
  cf <- cf_update fuel (cf_conf s) (sf_cf sf) m ;;
  let head := fopp (fused_azimuth cf) in
  let '(az, azv) :=
    if s_calcaz s then (cf_magaz cf, true)
    else if negb (azimuth_outdated (cf_conf s) cf) then (cf_devaz cf, true)
    else (f0, false) in
  match steps with
  | [] => Ok (mkSF cf ped (sf_steps sf) (sf_prevhead sf),
              mkMotion false f0 f0 0 head az 0 azv (cf_gyroh cf))
  | _ =>
      let count := (sf_steps sf + Z.of_nat (List.length steps))%Z in
      Ok (mkSF cf ped count head,
          mkMotion true (head -! sf_prevhead sf) (fsum (@sp_len F) steps *! s_stepmult s)
            count head az ts azv (cf_gyroh cf))
  end.
End Sensors.
