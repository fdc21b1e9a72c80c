(** Vocabulary for the sensor properties (C44-C47). *)
From Coq Require Import Reals ZArith List.
From Verif Require Import NumReal Sensors.
Import ListNotations.
Set Implicit Arguments.

(** Histories: the filter, the pedometer (whose two calls always come in this
    order, sensor_fusion.cpp:19-20) and the fusion, over a list of samples *)
Section Runs.
Context {F : Type} {NF : Num F}.
Fixpoint cf_run (fuel : nat) (k : cfconf F) (c : cfilter F) (ms : list (stamped (sensor F))) : res (cfilter F) :=
  match ms with
  | [] => Ok c
  | m :: t => c1 <- cf_update fuel k c m ;; cf_run fuel k c1 t
  end.
Definition ped_step (p : pedometer F) (m : stamped (sensor F)) : res (pedometer F * list (step F)) :=
  p1 <- ped_update p m ;; ped_steps p1.
Fixpoint ped_run (p : pedometer F) (ms : list (stamped (sensor F))) : res (pedometer F * list (list (step F))) :=
  match ms with
  | [] => Ok (p, [])
  | m :: t => '(p1, s) <- ped_step p m ;; '(p2, r) <- ped_run p1 t ;; Ok (p2, s :: r)
  end.
Fixpoint sf_run (fuel : nat) (s : settings F) (f : sfusion F) (ms : list (stamped (sensor F) * Z)) :
    res (sfusion F * list (motion F)) :=
  match ms with
  | [] => Ok (f, [])
  | (m, ts) :: t => '(f1, o) <- sf_step fuel s f m ts ;; '(f2, r) <- sf_run fuel s f1 t ;; Ok (f2, o :: r)
  end.
End Runs.

(** Timestamps of successive steps: the first after [last], each more than
    300 ms after its predecessor *)
Fixpoint spaced (last : Z) (l : list Z) : Prop :=
  match l with
  | [] => True
  | t :: r => (last + 300 < t)%Z /\ spaced t r
  end.
Definition non_decreasing (l : list Z) : Prop :=
  forall i j a b, (i <= j)%nat -> nth_error l i = Some a -> nth_error l j = Some b -> (a <= b)%Z.

(** the elements at most [w] before [now] (strictly less for [recent_lt]) *)
Definition newest_within {A} (ts : A -> Z) (now w : Z) (l : list A) : list A :=
  filter (fun x => (now - ts x <? w)%Z) l.

(** Real data *)
Definition real_vec (v : vec3 RX) (x y z : R) : Prop := v = mkV (Some x : RX) (Some y : RX) (Some z : RX).
Definition real_sample (m : stamped (sensor RX)) : Prop := exists x y z, real_vec (s_val (st_data m)) x y z.
Definition real_quat (q : quat RX) (w x y z : R) : Prop := q = mkQ (Some w : RX) (Some x : RX) (Some y : RX) (Some z : RX).
Definition unit_quat (q : quat RX) (w x y z : R) : Prop :=
  real_quat q w x y z /\ (w * w + x * x + y * y + z * z = 1)%R.
Definition real_gains (k : cfconf RX) : Prop :=
  exists a m i, k_acc k = (Some a : RX) /\ k_mag k = (Some m : RX) /\ k_int k = (Some i : RX).

(** The rotation matrix of a unit quaternion (rows), body to global *)
Section Rotation.
Local Open Scope R_scope.
Definition r11 (w x y z : R) := 1 - 2 * (y * y + z * z).
Definition r21 (w x y z : R) := 2 * (x * y + w * z).
Definition r12 (w x y z : R) := 2 * (x * y - w * z).
Definition r13 (w x y z : R) := 2 * (x * z + w * y).
Definition r22 (w x y z : R) := 1 - 2 * (x * x + z * z).
Definition r23 (w x y z : R) := 2 * (y * z - w * x).
Definition r31 (w x y z : R) := 2 * (x * z - w * y).
Definition r32 (w x y z : R) := 2 * (y * z + w * x).
Definition r33 (w x y z : R) := 1 - 2 * (x * x + y * y).
(** the global vertical seen from the body is the third row *)
Definition vertical (w x y z : R) : R * R * R := (r31 w x y z, r32 w x y z, r33 w x y z).
(** the first two global coordinates of a body vector *)
Definition glob_x (w x y z a b c : R) := r11 w x y z * a + r12 w x y z * b + r13 w x y z * c.
Definition glob_y (w x y z a b c : R) := r21 w x y z * a + r22 w x y z * b + r23 w x y z * c.
Definition dot3 (a b : R * R * R) : R :=
  let '(a1, a2, a3) := a in let '(b1, b2, b3) := b in a1 * b1 + a2 * b2 + a3 * b3.
Definition norm3 (x y z : R) : R := sqrt (x * x + y * y + z * z).
End Rotation.

Definition is_acc {F} (m : stamped (sensor F)) : bool :=
  match s_type (st_data m) with ACCELEROMETER => true | _ => false end.
(** magnitude of a real sample *)
Definition mag_of (m : stamped (sensor RX)) : R :=
  match s_val (st_data m) with
  | mkV (Some x) (Some y) (Some z) => norm3 x y z
  | _ => 0%R
  end.
(** magnitudes of the accelerometer samples of a history less than [w] ms old *)
Definition acc_within (now w : Z) (ms : list (stamped (sensor RX))) : list R :=
  map mag_of (newest_within (@st_ts _) now w (filter is_acc ms)).

(** What the motion infos of a history must say: [n] steps so far, [prev] the
    heading at the last of them *)
Fixpoint motions_ok {F} {NF : Num F} (n : Z) (prev : F) (l : list (Z * motion F)) : Prop :=
  match l with
  | [] => True
  | (ts, o) :: t =>
      if mi_step o then
        mi_count o = (n + 1)%Z /\ mi_lastTs o = ts /\ mi_dangle o = mi_head o -! prev /\
        motions_ok (n + 1) (mi_head o) t
      else
        mi_count o = 0%Z /\ mi_lastTs o = 0%Z /\ mi_dist o = f0 /\ mi_dangle o = f0 /\ motions_ok n prev t
  end.
Definition is_orientation {F} (m : stamped (sensor F)) : bool :=
  match s_type (st_data m) with ORIENTATION => true | _ => false end.
(** the last ORIENTATION sample *)
Definition last_orientation {F} (ms : list (stamped (sensor F))) : option (stamped (sensor F)) :=
  find is_orientation (rev ms).

(** half the angle accumulated by a gyroscope history of turns about the
    vertical; the first sample only starts the clock *)
Fixpoint half_turns (last : Z) (ms : list (stamped (sensor RX))) (rate : stamped (sensor RX) -> R) : R :=
  match ms with
  | [] => 0%R
  | m :: t => let from := if (last =? -1)%Z then st_ts m else last in
              (atan (rate m * (IZR (st_ts m - from) / 1000) / 2) + half_turns (st_ts m) t rate)%R
  end.
