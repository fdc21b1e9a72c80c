(** Vocabulary of the driver properties (C79, C80). *)
From Verif Require Import Base Driver.
Set Implicit Arguments.

(** [bs] cuts a list into consecutive pieces of [n], the last one possibly
    shorter *)
Definition cut {A : Type} (n : nat) (ms : list A) (bs : list (list A)) : Prop :=
  List.concat bs = ms /\
  (forall i b, nth_error bs i = Some b -> b <> [] /\ (List.length b <= n)%nat /\
     ((S i < List.length bs)%nat -> List.length b = n)).

(** the outcome, all pieces joined *)
Definition joined {A : Type} (r : res (list (list A))) : res (list A) := l <- r ;; Ok (List.concat l).

(** both succeed with related results, or both end in the same way *)
Definition same_outcome {A B : Type} (P : A -> B -> Prop) (a : res A) (b : res B) : Prop :=
  match a, b with
  | Ok x, Ok y => P x y
  | Throw, Throw | UB, UB | OutOfFuel, OutOfFuel => True
  | _, _ => False
  end.

(** the start time after a batch: that of its first measurement when it was
    still zero *)
Definition start_time {F : Type} (first : Z) (b : list (measurement F)) : Z :=
  if (first =? 0)%Z then match b with m :: _ => st_ts m | [] => 0%Z end else first.

(** the track printed on a line: the origin, or one step from it *)
Section Track.
Context {F : Type} {NF : Num F}.
Definition origin (l : pline F) : Prop := ln_x l = f0 /\ ln_y l = f0.
Definition moved (d h : F) (l : pline F) : Prop := ln_x l = f0 +! d *! fcos h /\ ln_y l = f0 +! d *! fsin h.
End Track.
