(** Outcomes, association lists (std::map / std::unordered_map), std::sort as
    an oracle, small list helpers. *)
From Coq Require Export List ZArith Bool String.
From Coq Require Import Permutation Sorted Lia.
Export ListNotations.
Set Implicit Arguments.

(** Outcome of a C++ computation. [Throw]: an exception escapes; [UB]:
    undefined behaviour; [OutOfFuel]: a loop did not finish within the
    iteration bound given to the model. *)
Inductive res (A : Type) : Type :=
| Ok : A -> res A
| Throw : res A
| UB : res A
| OutOfFuel : res A.
Arguments Throw {A}.
Arguments UB {A}.
Arguments OutOfFuel {A}.

Definition bind {A B : Type} (m : res A) (f : A -> res B) : res B :=
  match m with
  | Ok a => f a
  | Throw => Throw
  | UB => UB
  | OutOfFuel => OutOfFuel
  end.
Notation "x <- m ;; f" := (bind m (fun x => f))
  (at level 61, m at next level, right associativity).
Notation "' pat <- m ;; f" := (bind m (fun z => match z with pat => f end))
  (at level 61, pat pattern, m at next level, right associativity).

Definition is_ok {A : Type} (m : res A) : Prop := exists a, m = Ok a.

(** container.at(key): throws std::out_of_range when absent *)
Definition at_or_throw {A : Type} (o : option A) : res A :=
  match o with Some a => Ok a | None => Throw end.

(** Sequencing a fallible function over a list, left to right *)
Fixpoint mapM {A B : Type} (f : A -> res B) (l : list A) : res (list B) :=
  match l with
  | [] => Ok []
  | x :: t => y <- f x ;; ys <- mapM f t ;; Ok (y :: ys)
  end.

(** std::unordered_map / std::map whose iteration order is never observed *)
Fixpoint alookup {V : Type} (k : string) (l : list (string * V)) : option V :=
  match l with
  | [] => None
  | (k', v) :: t => if String.eqb k k' then Some v else alookup k t
  end.
Definition amem {V : Type} (k : string) (l : list (string * V)) : bool :=
  match alookup k l with Some _ => true | None => false end.
(** map.insert({k,v}): keeps the first value *)
Definition ainsert {V : Type} (k : string) (v : V) (l : list (string * V)) : list (string * V) :=
  if amem k l then l else l ++ [(k, v)].

(** std::map, iterated in key order: sorted association list *)
(** map[k] = v *)
Fixpoint mset {V : Type} (k : string) (v : V) (l : list (string * V)) : list (string * V) :=
  match l with
  | [] => [(k, v)]
  | (k', v') :: t =>
      if String.eqb k k' then (k, v) :: t
      else if String.ltb k k' then (k, v) :: (k', v') :: t
      else (k', v') :: mset k v t
  end.
(** value read by map[k] when the mapped type is value-initialised to [d] *)
Definition mget {V : Type} (d : V) (k : string) (l : list (string * V)) : V :=
  match alookup k l with Some v => v | None => d end.

(** std::sort as an oracle: nothing is known about its result unless the
    comparator is a strict weak order on the elements of the range, in which
    case the result is a sorted permutation. *)
Definition strict_weak_on {A : Type} (lt : A -> A -> bool) (l : list A) : Prop :=
  (forall a, In a l -> lt a a = false) /\
  (forall a b c, In a l -> In b l -> In c l -> lt a b = true -> lt b c = true -> lt a c = true) /\
  (forall a b c, In a l -> In b l -> In c l -> lt a b = false -> lt b c = false -> lt a c = false).

Class Sorter := {
  ssort : forall {A : Type}, (A -> A -> bool) -> list A -> list A;
  ssort_perm : forall {A : Type} (lt : A -> A -> bool) (l : list A),
    strict_weak_on lt l -> Permutation l (ssort lt l);
  ssort_sorted : forall {A : Type} (lt : A -> A -> bool) (l : list A),
    strict_weak_on lt l -> StronglySorted (fun a b => lt b a = false) (ssort lt l)
}.

(** std::sort where the comparator may fail to be a strict weak order (NaN
    keys): undefined behaviour in that case.  [swo_b] decides
    [strict_weak_on] on a finite range. *)
Definition swo_b {A : Type} (lt : A -> A -> bool) (l : list A) : bool :=
  forallb (fun a => negb (lt a a)) l &&
  forallb (fun a => forallb (fun b => forallb (fun c =>
    implb (lt a b && lt b c) (lt a c) &&
    implb (negb (lt a b) && negb (lt b c)) (negb (lt a c))) l) l) l.
Definition sort_res {SO : Sorter} {A : Type} (lt : A -> A -> bool) (l : list A) : res (list A) :=
  if swo_b lt l then Ok (ssort lt l) else UB.

(** std::max_element: first largest *)
Fixpoint max_elem_from {A : Type} (lt : A -> A -> bool) (best : A) (l : list A) : A :=
  match l with
  | [] => best
  | x :: t => max_elem_from lt (if lt best x then x else best) t
  end.
(** std::min_element: first smallest *)
Fixpoint min_elem_from {A : Type} (lt : A -> A -> bool) (best : A) (l : list A) : A :=
  match l with
  | [] => best
  | x :: t => min_elem_from lt (if lt x best then x else best) t
  end.

(** last element of a non-empty deque given as head and tail *)
Definition back {A : Type} (l : list A) : option A :=
  match rev l with [] => None | x :: _ => Some x end.
