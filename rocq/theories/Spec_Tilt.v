(** Vocabulary for the tilt error of the complementary filter (C99). *)
From Coq Require Import Reals ZArith List.
From Verif Require Import NumReal Sensors SaCf Spec_Sensors Spec_SaCf.
Import ListNotations.
Set Implicit Arguments.
Local Open Scope R_scope.

(** a sample whose direction is at most the angle [A] away from [u] *)
Definition points_near (u : R * R * R) (A : R) (v : vec3 RX) : Prop :=
  exists a b d, real_vec v a b d /\ / IZR (2 ^ 52) < norm3 a b d /\ cos A <= dot3 u (direction a b d).
(** seconds since the gyroscope sample before; the first one starts the clock *)
Definition seconds (last : Z) (m : stamped (sensor RX)) : R :=
  IZR (st_ts m - (if (last =? -1)%Z then st_ts m else last)) / 1000.

(** Samples of a device that does not turn and whose vertical is [u]: the
    accelerometer is off by at most the angle [A], a gyroscope sample shows a
    turn of at most [B] radians, and two of them have an accelerometer sample
    between them ([fresh]).  [last] is the time of the last gyroscope sample. *)
Fixpoint still_samples (u : R * R * R) (A B : R) (last : Z) (fresh : bool) (ms : list (stamped (sensor RX))) : Prop :=
  match ms with
  | [] => True
  | m :: t =>
      match s_type (st_data m) with
      | ACCELEROMETER => points_near u A (s_val (st_data m)) /\ still_samples u A B last true t
      | GYROSCOPE =>
          (exists a b d, real_vec (s_val (st_data m)) a b d /\ norm3 a b d * Rabs (seconds last m) <= B) /\
          (fresh = true \/ last = (-1)%Z) /\
          still_samples u A B (st_ts m) (fresh && (last =? -1)%Z) t
      | MAGNETOMETER => real_sample m /\ last <> (-1)%Z /\ still_samples u A B last fresh t
      | _ => still_samples u A B last fresh t
      end
  end.

Definition unit3 (u : R * R * R) : Prop := dot3 u u = 1.

(** [n] times an accelerometer sample along the third axis and a gyroscope
    sample about the second one, [d] ms apart *)
Fixpoint biased (g rate : R) (d T : Z) (n : nat) : list (stamped (sensor RX)) :=
  match n with
  | O => []
  | S n => mkSt (mkSensor ACCELEROMETER (mkV (Some 0 : RX) (Some 0 : RX) (Some g : RX))) (T + d) ::
           mkSt (mkSensor GYROSCOPE (mkV (Some 0 : RX) (Some rate : RX) (Some 0 : RX))) (T + d) ::
           biased g rate d (T + d) n
  end.

(** complementary_filter_test.cpp:17-27, 103-112: the three samples of every
    10 ms, in the order in which the test feeds them *)
Fixpoint test_samples (t : Z) (l : list (vec3 RX * vec3 RX * vec3 RX)) : list (stamped (sensor RX)) :=
  match l with
  | [] => []
  | (a, g, m) :: r =>
      mkSt (mkSensor ACCELEROMETER a) t :: mkSt (mkSensor GYROSCOPE g) t :: mkSt (mkSensor MAGNETOMETER m) t ::
      test_samples (t + 10) r
  end.
