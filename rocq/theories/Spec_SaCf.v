(** Vocabulary for the stand-alone complementary filter (C71-C73). *)
From Coq Require Import Reals ZArith List.
From Verif Require Import NumReal Sensors SaCf Spec_Sensors.
Import ListNotations.
Set Implicit Arguments.

Section Runs.
Context {F : Type} {NF : Num F}.
Fixpoint sacf_run (fuel : nat) (k : cfconf F) (c : sacf F) (ms : list (stamped (sensor F))) : res (sacf F) :=
  match ms with
  | [] => Ok c
  | m :: t => c1 <- sacf_update fuel k c m ;; sacf_run fuel k c1 t
  end.
(** what the stand-alone filter keeps of the state of the core's filter *)
Definition forget (c : cfilter F) : sacf F :=
  mkSaCf (cf_cur c) (cf_gyro c) (cf_interr c) (cf_q c) (cf_magaz c) (cf_devaz c) (cf_magn c) (cf_acc c).
Definition is_gyro (m : stamped (sensor F)) : bool :=
  match s_type (st_data m) with GYROSCOPE => true | _ => false end.
Definition is_mag (m : stamped (sensor F)) : bool :=
  match s_type (st_data m) with MAGNETOMETER => true | _ => false end.
(** the samples that can move the estimate once the gyroscope is running *)
Definition inertial (m : stamped (sensor F)) : bool :=
  match s_type (st_data m) with GYROSCOPE | ACCELEROMETER => true | _ => false end.
(** no magnetometer sample comes before the gyroscope runs *)
Fixpoint gyro_first (running : bool) (ms : list (stamped (sensor F))) : Prop :=
  match ms with
  | [] => True
  | m :: t => (is_mag m = true -> running = true) /\ (is_gyro m = true -> st_ts m <> (-1)%Z) /\
              gyro_first (running || is_gyro m) t
  end.
End Runs.

Section Still.
Local Open Scope R_scope.
(** the unit vector of a body vector *)
Definition direction (a b d : R) : R * R * R := let n := norm3 a b d in (a / n, b / n, d / n).
Definition points_to (u : R * R * R) (v : vec3 RX) : Prop :=
  exists a b d, real_vec v a b d /\ / IZR (2 ^ 52) < norm3 a b d /\ direction a b d = u.
(** samples of a device at rest whose accelerometer shows the direction [u] *)
Definition at_rest (u : R * R * R) (m : stamped (sensor RX)) : Prop :=
  match s_type (st_data m) with
  | ACCELEROMETER => points_to u (s_val (st_data m))
  | GYROSCOPE => real_vec (s_val (st_data m)) 0 0 0
  | MAGNETOMETER => real_sample m
  | _ => True
  end.
Definition count_acc (ms : list (stamped (sensor RX))) : nat := List.length (filter is_acc ms).
(** third global coordinate *)
Definition glob_z (w x y z a b c : R) := r31 w x y z * a + r32 w x y z * b + r33 w x y z * c.
(** what the accelerometer leaves of the misalignment per sample *)
Definition decay (ka c0 : R) : R := 1 - ka * (1 + c0) * (1 - ka / 2) / (1 + ka * ka / 4).
End Still.
