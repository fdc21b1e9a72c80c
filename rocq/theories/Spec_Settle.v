(** Vocabulary for the tilt error of a moving device (C101). *)
From Coq Require Import Reals ZArith List.
From Verif Require Import NumReal Sensors SaCf Spec_Sensors Spec_SaCf Spec_Tilt.
Import ListNotations.
Set Implicit Arguments.
Local Open Scope R_scope.

Definition dist3 (u v : R * R * R) : R :=
  let '(a, b, c) := u in let '(p, q, r) := v in norm3 (a - p) (b - q) (c - r).
Definition cross3 (u v : R * R * R) : R * R * R :=
  let '(a, b, c) := u in let '(p, q, r) := v in (b * r - c * q, c * p - a * r, a * q - b * p).
(** A vector that rests in space, seen by a body that turns by the (small)
    rotation vector [r]: [v] before and [v'] after, by the midpoint rule
    v' - v = (v + v') / 2 x r. *)
Definition seen_after (r v v' : R * R * R) : Prop :=
  let '(v1, v2, v3) := v in let '(w1, w2, w3) := v' in
  (w1 - v1, w2 - v2, w3 - v3) = cross3 ((v1 + w1) / 2, (v2 + w2) / 2, (v3 + w3) / 2) r.

(** a sample whose direction is at most [a] away from [u] *)
Definition shows_near (u : R * R * R) (a : R) (v : vec3 RX) : Prop :=
  exists p q r, real_vec v p q r /\ / IZR (2 ^ 52) < norm3 p q r /\ dist3 u (direction p q r) <= a.

(** Samples of a device that may turn.  Each comes with the true vertical (in
    the frame of the device) at its time; [u] is the one at the last gyroscope
    sample, whose time is [last].
    - The accelerometer shows [u] up to [a].
    - The turn shown by the gyroscope takes [u] to the new vertical up to [b].
    - Two gyroscope samples have an accelerometer sample between them.
    - The first gyroscope sample only starts the clock. *)
Fixpoint moving (a b : R) (u : R * R * R) (last : Z) (fresh : bool) (ms : list ((R * R * R) * stamped (sensor RX))) : Prop :=
  match ms with
  | [] => True
  | (u', m) :: t =>
      match s_type (st_data m) with
      | ACCELEROMETER => shows_near u a (s_val (st_data m)) /\ moving a b u last true t
      | GYROSCOPE =>
          (exists p q r v, real_vec (s_val (st_data m)) p q r /\
             let dt := seconds last m in seen_after (p * dt, q * dt, r * dt) u v /\ unit3 u' /\
             (if (last =? -1)%Z then u' = u else dist3 v u' <= b)) /\
          (fresh = true \/ last = (-1)%Z) /\
          moving a b u' (st_ts m) (fresh && (last =? -1)%Z) t
      | MAGNETOMETER => real_sample m /\ last <> (-1)%Z /\ moving a b u last fresh t
      | _ => moving a b u last fresh t
      end
  end.
(** the true vertical at the last gyroscope sample *)
Fixpoint true_end (u : R * R * R) (ms : list ((R * R * R) * stamped (sensor RX))) : R * R * R :=
  match ms with
  | [] => u
  | (u', m) :: t => true_end (match s_type (st_data m) with GYROSCOPE => u' | _ => u end) t
  end.
(** gyroscope samples after the one that starts the clock *)
Fixpoint gyro_steps (last : Z) (ms : list ((R * R * R) * stamped (sensor RX))) : nat :=
  match ms with
  | [] => 0
  | (_, m) :: t =>
      match s_type (st_data m) with
      | GYROSCOPE => (if (last =? -1)%Z then 0 else 1) + gyro_steps (st_ts m) t
      | _ => gyro_steps last t
      end
  end.
(** the time of the last gyroscope sample *)
Fixpoint end_time (last : Z) (ms : list ((R * R * R) * stamped (sensor RX))) : Z :=
  match ms with
  | [] => last
  | (_, m) :: t => end_time (match s_type (st_data m) with GYROSCOPE => st_ts m | _ => last end) t
  end.
(** what an accelerometer sample takes off the squared error, as a fraction *)
Definition taken (ka : R) : R := ka / (1 + ka * ka / 4).
(** the error at which the correction and the new errors balance *)
Definition residual (ka a b : R) : R :=
  let k := taken ka in (b + sqrt (b * b + k * (k * (a * a) - b * b))) / k.
