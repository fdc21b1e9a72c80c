(** Stand-alone complementary filter.  Models standalone_algorithms/
    complementary_filter/src/complementary_filter.cpp (line numbers below) and
    its header.  Its lowPassFilter, updateQuaternion, error terms, azimuth,
    quaternions and vectors have the text of the navigation core, so those of
    Sensors.v are used; state and update are its own. *)
From Verif Require Export Sensors.
Set Implicit Arguments.

(** complementary_filter.h:53-66; gains are a [cfconf] whose lifetime is unused *)
Record sacf (F : Type) := mkSaCf {
  sc_cur : Z; sc_gyro : Z; sc_interr : vec3 F; sc_q : quat F; sc_magaz : F; sc_devaz : F;
  sc_magn : stamped (sensor F); sc_acc : stamped (sensor F) }.

Section SaCf.
Context {F : Type} {NF : Num F}.

(** complementary_filter.h:12-19, 53-66; [tm], [ta] are the uninitialised
    types of the low-passed samples *)
Definition sacf0 (tm ta : stype) : sacf F :=
  mkSaCf (-1) (-1) v0 q_one f0 f0 (mkSt (mkSensor tm v0) (-1)) (mkSt (mkSensor ta v0) (-1)).

(** complementary_filter.h:56-58 default gains *)
Definition sacf_gains : cfconf F := mkCfc (lit 1 10) (lit 5 100) f0 f0.

(** 100-107 updateUsingGyroscope, with the first-sample rule of 84-85 *)
Definition sacf_gyro (c : sacf F) (m : stamped (sensor F)) : sacf F :=
  let last := if (sc_gyro c =? -1)%Z then st_ts m else sc_gyro c in
  let dt := fofZ (st_ts m - last) /! fofZ 1000 in
  mkSaCf (sc_cur c) (st_ts m) (sc_interr c)
    (update_quaternion (sc_q c) (v_add (v_scale dt (s_val (st_data m))) (v_scale dt (sc_interr c))))
    (sc_magaz c) (sc_devaz c) (sc_magn c) (sc_acc c).
(** 109-118 updateUsingAccelerometer *)
Definition sacf_accel (k : cfconf F) (c : sacf F) (m : stamped (sensor F)) : sacf F :=
  let err := acc_error (sc_q c) (s_val (st_data m)) in
  mkSaCf (sc_cur c) (sc_gyro c) (int_error k (sc_interr c) err)
    (update_quaternion (sc_q c) (v_scale (k_acc k) err))
    (sc_magaz c) (sc_devaz c) (sc_magn c) (sc_acc c).
(** 120-135 updateUsingMagnetometer *)
Definition sacf_magnet (k : cfconf F) (c : sacf F) (m : stamped (sensor F)) : sacf F :=
  let magn := v_normalized (s_val (st_data m)) in
  if v_mag magn <! cf_eps then c
  else
    let err := mag_error (sc_q c) magn in
    mkSaCf (sc_cur c) (sc_gyro c) (int_error k (sc_interr c) err)
      (update_quaternion (sc_q c) (v_scale (k_mag k) err))
      (sc_magaz c) (sc_devaz c) (sc_magn c) (sc_acc c).

Definition sacf_stamp (c : sacf F) (ts : Z) : sacf F :=
  mkSaCf ts (sc_gyro c) (sc_interr c) (sc_q c) (sc_magaz c) (sc_devaz c) (sc_magn c) (sc_acc c).
(** 66-98 update *)
Definition sacf_update (fuel : nat) (k : cfconf F) (c : sacf F) (m : stamped (sensor F)) : res (sacf F) :=
  match s_type (st_data m) with
  | ACCELEROMETER =>
      let c := mkSaCf (sc_cur c) (sc_gyro c) (sc_interr c) (sc_q c) (sc_magaz c) (sc_devaz c)
                 (sc_magn c) (low_pass (sc_acc c) m) in
      Ok (sacf_stamp (sacf_accel k c m) (st_ts m))
  | MAGNETOMETER =>
      let c := mkSaCf (sc_cur c) (sc_gyro c) (sc_interr c) (sc_q c) (sc_magaz c) (sc_devaz c)
                 (low_pass (sc_magn c) m) (sc_acc c) in
      let c := if (sc_gyro c =? -1)%Z then sacf_magnet k c m else c in
      az <- magnetic_azimuth fuel (sc_q c) (s_val (st_data m)) ;;
      Ok (mkSaCf (st_ts m) (sc_gyro c) (sc_interr c) (sc_q c) az (sc_devaz c) (sc_magn c) (sc_acc c))
  | GYROSCOPE => Ok (sacf_stamp (sacf_gyro c m) (st_ts m))
  | ORIENTATION =>
      Ok (mkSaCf (st_ts m) (sc_gyro c) (sc_interr c) (sc_q c) (sc_magaz c) (vx (s_val (st_data m)))
            (sc_magn c) (sc_acc c))
  | _ => Ok (sacf_stamp c (st_ts m))
  end.

(** 36-43 getFusedOrientation: roll, pitch, yaw, time *)
Definition fused_orientation (c : sacf F) : F * F * F * Z := (q_euler (sc_q c), sc_cur c).
End SaCf.
