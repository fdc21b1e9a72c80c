(** Vocabulary for the stand-alone pedometer (C69, C70). *)
From Coq Require Import Reals ZArith List.
From Verif Require Import NumReal Sensors SaPed Spec_Sensors.
Import ListNotations.
Set Implicit Arguments.

(** Successive times differ by 0 to [w] *)
Fixpoint steady (w : Z) (l : list Z) : Prop :=
  match l with
  | [] => True
  | a :: t => match t with [] => True | b :: _ => (0 <= b - a <= w)%Z end /\ steady w t
  end.

Section Spec.
Context {F : Type} {NF : Num F}.
Notation sample := (stamped (sensor F)).

(** The signal at the last sample [m] of a history [h ++ [m]]: mean magnitude
    of the last 200 ms minus the mean (with one value too many) of the last
    2500 ms *)
Definition signal_at (h : list sample) (m : sample) : magnitude F :=
  let len v := fsqrt (vx v *! vx v +! vy v *! vy v +! vz v *! vz v) in
  let sum l := fsum (fun x : sample => len (s_val (st_data x))) l in
  let wide := newest_within (@st_ts _) (st_ts m) 2500 (h ++ [m]) in
  let narrow := newest_within (@st_ts _) (st_ts m) 200 (h ++ [m]) in
  let mean := sum narrow /! fofnat (List.length narrow) in
  mkMagn (st_ts m) (mean -! (sum wide +! mean) /! fofnat (List.length wide)).
Fixpoint signal_from (h ms : list sample) : list (magnitude F) :=
  match ms with
  | [] => []
  | m :: t => signal_at h m :: signal_from (h ++ [m]) t
  end.
Definition signal (ms : list sample) : list (magnitude F) := signal_from [] ms.

(** Detection over a whole signal that is never trimmed: [before] is the past,
    newest first, [poss] the time of the last step.  A step is an upward
    crossing of 0.05 g more than 300 ms after the last step; its length is
    taken from the complete past. *)
Fixpoint detect (poss : Z) (before gs : list (magnitude F)) : list (step F) :=
  match gs with
  | [] => []
  | c :: t =>
      match before with
      | [] => detect poss [c] t
      | p :: _ =>
          let level := lit 5 100 *! lit 980665 100000 in
          if (mg_val p <! level) && (level <! mg_val c) && (poss + 300 <? mg_ts c)%Z
          then mkStep (mg_ts c) (step_length c before) :: detect (mg_ts c) (c :: before) t
          else detect poss (c :: before) t
      end
  end.
(** detection that starts only after [k] values *)
Definition detect_after (k : nat) (gs : list (magnitude F)) : list (step F) :=
  detect (-1) (rev (firstn k gs)) (skipn k gs).

(** The number of samples in the leading batches that leave at most three
    samples in total: these are never examined *)
Fixpoint warm_up (n : nat) (bs : list (list sample)) : nat :=
  match bs with
  | [] => n
  | b :: t => if Nat.leb (n + List.length b) 3 then warm_up (n + List.length b) t else n
  end.

(** What the samples must satisfy: times that do not go back, gaps of at most
    700 ms, no time 0 *)
Definition regular (ms : list sample) : Prop :=
  steady 700 (map (@st_ts _) ms) /\ Forall (fun m => st_ts m <> 0%Z) ms.
(** What the numbers must satisfy: 300 is positive and the counts that occur are not zero *)
Definition sane (n : nat) : Prop :=
  (f0 <! (f1 *! fofZ 300 : F)) = true /\ forall i, (i < n)%nat -> ((fofnat (S i) : F) =! f0) = false.

(** Calls in any order: Some b is update(b), None is calculateSteps() *)
Fixpoint saped_calls (p : pedometer F) (cs : list (option (list sample))) :
    res (pedometer F * list (list (step F))) :=
  match cs with
  | [] => Ok (p, [])
  | Some b :: t => p1 <- saped_update p b ;; saped_calls p1 t
  | None :: t => '(p1, s) <- ped_steps p ;; '(p2, r) <- saped_calls p1 t ;; Ok (p2, s :: r)
  end.
End Spec.
