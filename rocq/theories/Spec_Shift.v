(** Vocabulary of the time-origin property (C92). *)
From Verif Require Import Base Types Client.
Set Implicit Arguments.
Local Open Scope Z_scope.

(** the same measurement made [d] milliseconds later *)
Definition later {A : Type} (d : Z) (m : stamped A) : stamped A := mkSt (st_data m) (st_ts m + d).
(** the same unspecified contents, [d] milliseconds later *)
Definition later_garbage {F : Type} (d : Z) (g : garbage F) : garbage F :=
  mkGarb (g_signal g + d) (later d (g_sensor g)) (g_nmea g) (later d (g_magn g)) (later d (g_acc g)).
(** a sort that only looks at the elements through the comparison *)
Definition generic_sort (SO : Sorter) : Prop :=
  forall (A : Type) (f : A -> A) (lt : A -> A -> bool) (l : list A),
    (forall a b, In a l -> In b l -> lt (f a) (f b) = lt a b) -> ssort lt (map f l) = map f (ssort lt l).
(** what is observable of a history: how it ends, every output, and the states of the last call *)
Definition observed {F : Type} (r : res (client F * list (list (noutput F)))) : res (list (list (noutput F)) * list (nstate F)) :=
  bind r (fun x => Ok (snd x, c_states (fst x))).
