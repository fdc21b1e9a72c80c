(** What it means for the integer arithmetic of a run to be exact. *)
From Verif Require Import Overflow.
Set Implicit Arguments.
Local Open Scope Z_scope.

(** the two integer types of the code that hold times and counts *)
Definition in64 (z : Z) : Prop := - 2 ^ 63 <= z <= 2 ^ 63 - 1.
Definition in32 (z : Z) : Prop := - 2 ^ 31 <= z <= 2 ^ 31 - 1.
(** the value computed by the machine is the mathematical one *)
Definition fits (o : iop) : Prop := match o with I64 v => in64 v | I32 v => in32 v end.

Section Spec.
Context {F : Type}.
(** every time stamp the client is given, and every time in the members that no
    constructor initialises, lies between [lo] and [hi] *)
Definition input_times (lo hi : Z) (bs : list (list (measurement F))) : Prop :=
  Forall (fun m => lo <= st_ts m <= hi) (List.concat bs).
Definition initial_times (lo hi : Z) (g : garbage F) : Prop :=
  lo <= g_signal g <= hi /\ lo <= st_ts (g_sensor g) <= hi /\ lo <= st_ts (g_magn g) <= hi /\
  lo <= st_ts (g_acc g) <= hi.
End Spec.
