(** standalone_algorithms/complementary_filter/tests/complementary_filter_test.cpp.
    Random draws are arguments; the checks of Boost.Test are results. *)
From Verif Require Export SaDemo.
Set Implicit Arguments.

Section Test.
Context {F : Type} {NF : Num F}.

(** 25-31: times; t += 1000 * tick converts to double and back.  [fuel] bounds
    the number of iterations *)
Fixpoint tilt_times (fuel : nat) (i t : Z) (dur tick : F) : res (list Z) :=
  if fofZ i <! dur /! tick then
    match fuel with
    | O => OutOfFuel
    | S fuel =>
        match ftoZ (fofZ t +! fofZ 1000 *! tick) with
        | None => UB
        | Some t' => l <- tilt_times fuel (i + 1) t' dur tick ;; Ok (t :: l)
        end
    end
  else Ok [].
(** 33-81, an element of the three vectors; [na] and [ng] are the draws *)
Definition tilt_imu (tilt : F) (ts : Z) (na ng : vec3 F) : imu F :=
  let a := mkV (fopp grav *! fsin tilt +! vx na) (f0 +! vy na) (grav *! fcos tilt +! vz na) in
  let g := mkV (f0 +! vx ng) (f0 +! vy ng) (f0 +! vz ng) in
  let m := mkV (flux *! fcos (inclination +! tilt)) f0 (flux *! fsin (inclination +! tilt)) in
  mkImu (mkSt (mkSensor ACCELEROMETER a) ts) (mkSt (mkSensor GYROSCOPE g) ts) (mkSt (mkSensor MAGNETOMETER m) ts).
Fixpoint tilt_imus (tilt : F) (ts : list Z) (draws : list (vec3 F * vec3 F)) : list (imu F) :=
  match ts, draws with
  | t :: ts, (na, ng) :: draws => tilt_imu tilt t na ng :: tilt_imus tilt ts draws
  | _, _ => []
  end.
(** 97-109: the last orientation; it starts as (0, 0, 0) *)
Definition tilt_run (fuel : nat) (tm ta : stype) (dur tilt freq : F) (draws : list (vec3 F * vec3 F)) : res (F * F * F) :=
  ts <- tilt_times fuel 0 1583315232492 dur (f1 /! freq) ;;
  out <- demo_angles fuel (sacf0 tm ta) (tilt_imus tilt ts draws) ;;
  Ok (snd (last out (0%Z, (f0, f0, f0)))).
(** 111-112: the two checks *)
Definition tilt_checks (tilt : F) (o : F * F * F) : bool * bool :=
  let '(roll, pitch, _) := o in
  (fabs roll <! fpi *! f1 /! fofZ 180, fabs (pitch -! tilt) <! fpi *! f1 /! fofZ 180).
(** 84-113 staticTilt, for a duration of 10 s and a tilt of 0 *)
Definition static_tilt (fuel : nat) (tm ta : stype) (draws : list (vec3 F * vec3 F)) : res (bool * bool) :=
  o <- tilt_run fuel tm ta (fofZ 10) f0 (fofZ 100) draws ;;
  Ok (tilt_checks f0 o).
End Test.
