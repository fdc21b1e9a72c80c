(** The programs that come with the stand-alone algorithms (below, paths are
    relative to standalone_algorithms):
    - complementary_filter/examples/main.cpp, the simulated pendulum;
    - position_estimation/examples/main.cpp;
    - pedometer/examples/main.cpp;
    - trilateteration/src/test_trilateration.cpp.
    Text is not modelled: a line of a file is what operator>> makes of it,
    [None] when an extraction fails.  A file that cannot be opened has no lines
    (the programs print a message and go on).  Random draws are arguments. *)
From Verif Require Export SaCf SaPos SaPed SaTrilat.
Set Implicit Arguments.

(** complementary_filter/examples/main.cpp:30-32, an element of times, thetas, thetaVels *)
Record tick (F : Type) := mkTick { tk_t : F; tk_theta : F; tk_vel : F }.
(** 76-122: an element of the three vectors *)
Record imu (F : Type) := mkImu { im_acc : stamped (sensor F); im_gyro : stamped (sensor F); im_magn : stamped (sensor F) }.

Section Demo.
Context {F : Type} {NF : Num F} {SO : Sorter}.

(** * complementary_filter/examples/main.cpp *)
(** 9-11 *)
Definition flux : F := lit 48 100.
Definition inclination : F := lit 6048 100 *! fpi /! fofZ 180.
Definition grav : F := lit 981 100.

(** 38-43; [fuel] bounds the number of iterations *)
Fixpoint static_phase (fuel : nat) (i : Z) (t : F) (dur dt theta0 : F) : res (list (tick F) * F) :=
  if fofZ i <! dur /! dt then
    match fuel with
    | O => OutOfFuel
    | S fuel => '(l, t') <- static_phase fuel (i + 1) (t +! dt) dur dt theta0 ;;
                Ok (mkTick t theta0 f0 :: l, t')
    end
  else Ok ([], t).
(** 45-57 *)
Fixpoint swing_phase (fuel : nat) (i : Z) (t prev : F) (dur dt theta0 len : F) : res (list (tick F)) :=
  if fofZ i <! dur /! dt then
    match fuel with
    | O => OutOfFuel
    | S fuel =>
        let theta := theta0 *! fcos (fsqrt (grav /! len) *! t) in
        let vel := (theta -! prev) /! dt in
        l <- swing_phase fuel (i + 1) (t +! dt) theta dur dt theta0 len ;;
        Ok (mkTick t theta vel :: l)
    end
  else Ok [].
(** 23-60 simulatePendulumMotion *)
Definition pendulum (fuel : nat) (still swing freq len theta0 : F) : res (list (tick F)) :=
  let dt := f1 /! freq in
  '(l, t) <- static_phase fuel 0 f0 still dt theta0 ;;
  r <- swing_phase fuel 0 t theta0 swing dt theta0 len ;;
  Ok (l ++ r).

(** 83, 100, 115: long long + double, stored in a long long *)
Definition demo_ts (t : F) : res Z :=
  match ftoZ (fofZ 1583315232492 +! fofZ 1000 *! t) with Some z => Ok z | None => UB end.
(** 73-122 generateImuPendulum for one element; [na] and [ng] are the draws of
    the two normal distributions *)
Definition demo_imu (len : F) (k : tick F) (na ng : vec3 F) : res (imu F) :=
  ts <- demo_ts (tk_t k) ;;
  let th := tk_theta k in
  let a := mkV (fopp grav *! fsin th +! vx na) (f0 +! vy na)
             (fopp len *! fpowi (tk_vel k) 2 +! grav *! fcos th +! vz na) in
  let g := mkV (f0 +! vx ng) (tk_vel k +! vy ng) (f0 +! vz ng) in
  let m := mkV (flux *! fcos (inclination +! th)) f0 (flux *! fsin (inclination +! th)) in
  Ok (mkImu (mkSt (mkSensor ACCELEROMETER a) ts) (mkSt (mkSensor GYROSCOPE g) ts) (mkSt (mkSensor MAGNETOMETER m) ts)).
Fixpoint demo_imus (len : F) (ks : list (tick F)) (draws : list (vec3 F * vec3 F)) : res (list (imu F)) :=
  match ks, draws with
  | k :: ks, (na, ng) :: draws => m <- demo_imu len k na ng ;; r <- demo_imus len ks draws ;; Ok (m :: r)
  | _, _ => Ok []
  end.
(** 161-172: the lines written, time, roll, pitch, yaw *)
Fixpoint demo_angles (fuel : nat) (c : sacf F) (ms : list (imu F)) : res (list (Z * (F * F * F))) :=
  match ms with
  | [] => Ok []
  | m :: t =>
      c <- sacf_update fuel sacf_gains c (im_acc m) ;;
      c <- sacf_update fuel sacf_gains c (im_gyro m) ;;
      c <- sacf_update fuel sacf_gains c (im_magn m) ;;
      r <- demo_angles fuel c t ;;
      Ok ((st_ts (im_acc m), fst (fused_orientation c)) :: r)
  end.
(** 124-178 main; every element gets its draws *)
Definition pendulum_main (fuel : nat) (tm ta : stype) (draws : list (vec3 F * vec3 F)) : res (list (Z * (F * F * F))) :=
  ks <- pendulum fuel (fofZ 10) (fofZ 10) (fofZ 100) f1 (fpi /! fofZ 60) ;;
  ms <- demo_imus f1 ks draws ;;
  demo_angles fuel (sacf0 tm ta) ms.

(** * Lines *)
(** the reading loops stop at the first line that cannot be read *)
Fixpoint read_lines {A : Type} (l : list (option A)) : list A :=
  match l with Some a :: t => a :: read_lines t | _ => [] end.
Definition line_type (s : string) : rtype :=
  match String.index 0 "WIFI" s with Some _ => WIFI | None => BEACON end.

(** * position_estimation/examples/main.cpp *)
(** 29-57 getTransmitters: id, x, y, type *)
Definition demo_txs (l : list (option (string * F * F * string))) : list (string * (F * F)) :=
  map (fun q => let '(id, x, y, _) := q in (id, (x, y))) (read_lines l).
(** 59-89 getMeasurements: time, id, rssi, type; power, distance and
    deviation do not exist in the stand-alone program and are not read *)
Definition demo_meas (l : list (option (Z * string * F * string))) : list (stamped (radio F)) :=
  map (fun q => let '(ts, id, rssi, ty) := q in mkSt (mkRadio (line_type ty) id rssi f0 f0 f0) ts) (read_lines l).
(** 106-133 main: the lines written *)
Definition position_main (c : sapcfg) (txf : list (option (string * F * F * string)))
    (msf : list (option (Z * string * F * string))) : res (list (sapos F)) :=
  pk <- sa_packets c (demo_meas msf) ;;
  Ok (sa_track (saest0 (demo_txs txf)) pk).

(** * pedometer/examples/main.cpp *)
(** 8-30 parseMeasurements, 43-54 the number printed; the first line is skipped *)
Definition pedometer_main (l : list (option (Z * vec3 F))) : res nat :=
  saped_count (map (fun q => mkSt (mkSensor ACCELEROMETER (snd q)) (fst q)) (read_lines (tl l))).

(** * trilateteration/src/test_trilateration.cpp *)
Local Notation id1 := "(53580,22667,F7826DA6-4FA2-4E98-8024-BC5B71E0893E)"%string.
Local Notation id2 := "(49599,56896,F7826DA6-4FA2-4E98-8024-BC5B71E0893E)"%string.
Local Notation id3 := "(57506,19633,F7826DA6-4FA2-4E98-8024-BC5B71E0893E)"%string.
(** 36-47 *)
Definition test_beacons : list (beacon F) :=
  [mkBeacon id1 (lit 5469 100) (lit 2951 100); mkBeacon id2 (lit 5468 100) (lit 2951 100); mkBeacon id3 (lit 4905 100) (lit 3216 100)].
(** 50-75 *)
Definition test_meas : list (bmeas F) :=
  [mkBm id1 (lit (-8657) 100) (lit 447 100); mkBm id2 (lit (-9080) 100) (lit 1413 100);
   mkBm id3 (lit (-8641) 100) (lit 1585 100); mkBm "22211,00231"%string (lit (-2141) 100) (lit 1585 100)].
(** 99-108: true when "test passed!" is printed *)
Definition verdict (x y : F) (err : Z) : bool :=
  negb (negb (x =! lit 53692 1000) && negb (y =! lit 29977 1000) && negb (err =? 0)%Z).
(** 21-115 main: coordinates printed, verdict, exit code *)
Definition trilateration_main : res (F * F * bool * Z) :=
  '(s, err) <- calculate (tl_fill (tl_update tl0 test_meas) test_beacons) ;;
  Ok (tl_x s, tl_y s, verdict (tl_x s) (tl_y s) err, err).
End Demo.
