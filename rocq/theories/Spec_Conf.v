(** Vocabulary for C106-C108: settings in milliseconds, the low-passed samples
    and the tables of the fingerprints. *)
From Coq Require Import Reals ZArith List String.
From Verif Require Import NumReal Sensors SaCf Spec_Sensors Spec_SaCf Knn.
Import ListNotations.
Set Implicit Arguments.

(** whole milliseconds in [x] seconds, rounded towards zero *)
Definition whole_ms (x : R) (z : Z) : Prop :=
  ((0 <= x -> IZR z <= 1000 * x < IZR z + 1) /\ (x < 0 -> IZR z - 1 < 1000 * x <= IZR z))%R.
Definition int64 (z : Z) : Prop := (- 2 ^ 63 <= z < 2 ^ 63)%Z.

(** how a window of [w] ms and a requested shift of [s] ms are used: keep [k],
    shift by [d] *)
Definition window_rule (w s k d : Z) : Prop :=
  (k + d = w)%Z /\ ((s <> 0 /\ s <= w)%Z -> d = s) /\ ((s = 0 \/ w < s)%Z -> d = w).

Section Low.
Context {F : Type}.
(** the two states agree on everything but the low-passed samples *)
Definition same_but_low (c d : cfilter F) : Prop :=
  cf_cur c = cf_cur d /\ cf_gyro c = cf_gyro d /\ cf_devts c = cf_devts d /\ cf_interr c = cf_interr d /\ cf_q c = cf_q d /\
  cf_magaz c = cf_magaz d /\ cf_devaz c = cf_devaz d /\ cf_gyroh c = cf_gyroh d.
(** the same failure, or results in the relation *)
Definition agree {A : Type} (P : A -> A -> Prop) (a b : res A) : Prop :=
  match a, b with
  | Ok x, Ok y => P x y
  | Throw, Throw => True
  | UB, UB => True
  | OutOfFuel, OutOfFuel => True
  | _, _ => False
  end.
Definition of_type (t : stype) (m : stamped (sensor F)) : bool :=
  match t, s_type (st_data m) with
  | ACCELEROMETER, ACCELEROMETER => true
  | MAGNETOMETER, MAGNETOMETER => true
  | _, _ => false
  end.
End Low.

(** one axis of a low-passed signal: the weight of the old value after a step
    of [d] ms is 1 / (1 + max(d/1000, 0.02)) *)
Section Axis.
Local Open Scope R_scope.
Definition old_weight (d : Z) : R := / (1 + Rmax (IZR d / 1000) (2 / 100)).
Fixpoint smoothed (t : Z) (v : R) (ms : list (Z * R)) : R :=
  match ms with
  | [] => v
  | (t1, x) :: r => let a := old_weight (t1 - t) in smoothed t1 (a * v + (1 - a) * x) r
  end.
(** product of the weights along the times *)
Fixpoint damping (t : Z) (ts : list Z) : R :=
  match ts with
  | [] => 1
  | t1 :: r => old_weight (t1 - t) * damping t1 r
  end.
Inductive axis := AX | AY | AZ.
Definition coord (i : axis) (m : stamped (sensor RX)) : RX :=
  match i with AX => vx (s_val (st_data m)) | AY => vy (s_val (st_data m)) | AZ => vz (s_val (st_data m)) end.
End Axis.

(** entries of a transmitter in the points of a level, in storage order, with
    the points they belong to *)
Section Tables.
Context {F : Type}.
Definition entries (l : level F) (tx : string) : list (string * sigstat F) :=
  flat_map (fun rp => map (fun e => (rp_id rp, snd e)) (filter (fun e => String.eqb (fst e) tx) (rp_fp rp))) (rm_points (l_rm l)).
(** [l] is the last level called [id] *)
Definition last_level (ls : list (level F)) (id : string) (l : level F) : Prop :=
  exists a b, ls = a ++ l :: b /\ l_id l = id /\ Forall (fun l' => l_id l' <> id) b.
Definition mentions (l : level F) (tx : string) : Prop :=
  exists rp, In rp (rm_points (l_rm l)) /\ In tx (map fst (rp_fp rp)).
End Tables.
