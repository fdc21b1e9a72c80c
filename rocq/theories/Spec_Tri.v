(** Specifications for the triangulation (C52, C53). *)
From Coq Require Import Reals List String.
From Verif Require Import Types NumReal LibR Triangulation.
Import ListNotations.
Set Implicit Arguments.
Local Open Scope R_scope.
Local Open Scope list_scope.

(** plane geometry over the reals *)
Definition pt : Type := (R * R)%type.
Definition dist2 (a b : pt) : R := sqrt ((fst a - fst b) * (fst a - fst b) + (snd a - snd b) * (snd a - snd b)).

Definition at_pt (v : tvert RX) (p : pt) : Prop := tv_x v = (Some (fst p) : RX) /\ tv_y v = (Some (snd p) : RX).
Definition loc (v : tvert RX) : pt := (rval (tv_x v), rval (tv_y v)).
Definition real_vert (v : tvert RX) : Prop := at_pt v (loc v).
(** the three names the algorithm reserves *)
Definition reserved : list string := ["super1"; "super2"; "super3"]%string.

(** inputs the algorithm can handle: real coordinates, distinct names none of
    which is reserved, distinct places *)
Definition proper (vs : list (tvert RX)) : Prop :=
  Forall real_vert vs /\ NoDup (map (@tv_id RX) vs) /\ (forall v, In v vs -> ~ In (tv_id v) reserved) /\ NoDup (map loc vs).

Definition corners {F} (t : triangle F) : list (tvert F) := [ta t; tb t; tc t].
