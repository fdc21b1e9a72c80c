(** Vocabulary for the example programs (C102-C104). *)
From Coq Require Import Reals ZArith List String.
From Verif Require Import NumReal Types Sensors Spec_Sensors Spec_Tilt SaPos.
Import ListNotations.
Set Implicit Arguments.
Local Open Scope list_scope.
Local Open Scope R_scope.

(** the angle of the pendulum after [i] hundredths of a second: ten seconds
    held at three degrees, then the harmonic motion of a pendulum of 1 m *)
Definition swing_angle (i : nat) : R :=
  if (i <? 1000)%nat then PI / 60 else PI / 60 * cos (sqrt (981 / 100) * (INR i / 100)).
(** draws of the accelerometer noise (m/s^2) and of the gyroscope noise with bias (rad/s) *)
Definition small_draw (d : vec3 RX * vec3 RX) : Prop :=
  exists a b c p q r, real_vec (fst d) a b c /\ real_vec (snd d) p q r /\
    Rabs a <= 5 / 100 /\ Rabs b <= 5 / 100 /\ Rabs c <= 5 / 100 /\
    Rabs p <= 1 / 100 /\ Rabs q <= 1 / 100 /\ Rabs r <= 1 / 100.
Definition degree : R := PI * 1 / 180.

(** * Input files (C103) *)
(** what the readable lines before the first malformed one say *)
Definition readable {A : Type} (file : list (option A)) (lines : list A) : Prop :=
  exists rest, file = map Some lines ++ rest /\ (rest = [] \/ exists t, rest = None :: t).
Definition mentions (w s : string) : Prop := exists a b, s = (a ++ w ++ b)%string.
Notation txline F := (string * F * F * string)%type.
Notation msline F := (Z * string * F * string)%type.
(** the last line about the transmitter [id] puts it at (x, y) *)
Definition placed {F : Type} (txs : list (txline F)) (id : string) (x y : F) : Prop :=
  exists l1 ty l2, txs = l1 ++ (id, x, y, ty) :: l2 /\ ~ In id (map (fun q => fst (fst (fst q))) l2).
(** a line the preprocessor accepts *)
Definition heard (c : sapcfg) (q : msline RX) : Prop :=
  let '(ts, id, rssi, ty) := q in
  (mentions "WIFI" ty /\ sp_wifi c = true \/ ~ mentions "WIFI" ty /\ sp_ble c = true) /\ exists v, rssi = Some v /\ -100 < v < 0.
(** heard, and of a known transmitter *)
Definition usable (c : sapcfg) (txs : list (txline RX)) (q : msline RX) : Prop :=
  heard c q /\ let '(ts, id, rssi, ty) := q in exists x y, placed txs id x y.
