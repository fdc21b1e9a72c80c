(** standalone_algorithms/pedometer/tests/pedometer_test.cpp.  Text is not
    modelled: a line is what operator>> makes of it, read as ground truth and
    read as a sample.  The step counter (an int) is a natural number. *)
From Verif Require Export SaDemo.
Set Implicit Arguments.

(** number and length as read by line 35 (a number that cannot be read is
    stored as 0 and the length is then untouched, [None]); time and values as
    read by line 40, [None] when an extraction fails *)
Record pline (F : Type) := mkPline { pl_num : Z; pl_len : option F; pl_data : option (Z * vec3 F) }.

Section PedTest.
Context {F : Type} {NF : Num F}.

Definition ped_sample (q : Z * vec3 F) : stamped (sensor F) := mkSt (mkSensor ACCELEROMETER (snd q)) (fst q).
(** 21-48 parseTestData; a file that cannot be opened has no lines *)
Fixpoint parse_test (n : Z) (len : F) (l : list (pline F)) : Z * F * list (stamped (sensor F)) :=
  match l with
  | [] => (n, len, [])
  | x :: t =>
      if (n =? 0)%Z then parse_test (pl_num x) (match pl_len x with Some v => v | None => len end) t
      else match pl_data x with
           | Some q => let '(n, len, ms) := parse_test n len t in (n, len, ped_sample q :: ms)
           | None => (n, len, [])
           end
  end.
(** 50-68 getStepsNumLenPair *)
Definition ped_report (ms : list (stamped (sensor F))) : res (nat * F) :=
  '(_, r) <- saped_run ped0 (map (fun m => [m]) ms) ;;
  let ss := List.concat r in
  Ok (List.length ss, fsum (@sp_len F) ss /! fofnat (List.length ss)).
(** BOOST_CHECK_CLOSE: the difference relative to either value is at most
    [pct] percent.  Boost's guarded division gives 0 for a difference of 0; a
    quotient that overflows exceeds, and one that underflows is within, every
    tolerance used here. *)
Definition check_close (a b pct : F) : bool :=
  let d := fabs (a -! b) in
  let within x := if d =! f0 then true else if x =! f0 then false else d /! x <=! pct /! fofZ 100 in
  within (fabs b) && within (fabs a).
(** 70-82 and the other cases: the two checks *)
Definition ped_test (l : list (pline F)) : res (bool * bool) :=
  let '(n, len, ms) := parse_test 0 f0 l in
  '(k, m) <- ped_report ms ;;
  Ok (check_close (fofnat k) (fofZ n) (fofZ 5), check_close m len (fofZ 20)).
End PedTest.
