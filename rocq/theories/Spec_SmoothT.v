(** Vocabulary of the last two positions of the time smoother (C37). *)
From Verif Require Import Base Smooth.
Set Implicit Arguments.

(** one call: the position supplied and the time asked for *)
Definition tcall (F : Type) : Type := (position F * Z)%type.
(** the positions that were later than all those before, newest first *)
Fixpoint records (F : Type) (h : list (tcall F)) : list (position F) :=
  match h with
  | [] => []
  | c :: t =>
      match records t with
      | [] => [fst c]
      | q :: r => if (p_ts q <? p_ts (fst c))%Z then fst c :: q :: r else q :: r
      end
  end.
(** state after the calls [h], newest first *)
Fixpoint time_fed {F : Type} {NF : Num F} (m : tsm F) (h : list (tcall F)) : tsm F :=
  match h with [] => m | c :: t => fst (time_smooth (time_fed m t) (fst c) (snd c)) end.
(** calls with positions of one level, none of them in the future *)
Definition same_level (F : Type) (L : string) (h : list (tcall F)) : Prop :=
  Forall (fun c : tcall F => p_empty (fst c) = false /\ p_level (fst c) = L /\ (p_ts (fst c) <= snd c)%Z) h.
