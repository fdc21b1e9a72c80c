(** Specification of the Delaunay property (C58): plane geometry over the
    reals, circles given by their centre. *)
From Coq Require Import Reals List.
From Verif Require Import NumReal Triangulation Spec_Tri.
Import ListNotations.
Set Implicit Arguments.
Local Open Scope R_scope.

Definition sqd (a b : pt) : R := (fst a - fst b) * (fst a - fst b) + (snd a - snd b) * (snd a - snd b).
(** twice the signed area *)
Definition area2 (a b c : pt) : R := (fst b - fst a) * (snd c - snd a) - (snd b - snd a) * (fst c - fst a).
(** [o] is the centre of the circle through three points *)
Definition centre_of (o a b c : pt) : Prop := sqd o a = sqd o b /\ sqd o b = sqd o c.
Definition outside_circle (a b c v : pt) : Prop := exists o, centre_of o a b c /\ sqd o a < sqd o v.

(** general position with the tolerance of the code: no three points on a
    line, and no point on the circle of three others or so little inside it
    that the code cannot tell *)
Definition general (V : list pt) : Prop :=
  (forall a b c, In a V -> In b V -> In c V -> a <> b -> b <> c -> a <> c -> area2 a b c <> 0) /\
  (forall a b c v o, In a V -> In b V -> In c V -> In v V -> a <> b -> b <> c -> a <> c -> v <> a -> v <> b -> v <> c ->
     centre_of o a b c -> sqd o a < sqd o v \/ 1 / 100000000 < area2 a b c * area2 a b c * (sqd o a - sqd o v)).

(** the triangle is Delaunay in [V] *)
Definition delaunay (V : list pt) (a b c : pt) : Prop :=
  In a V /\ In b V /\ In c V /\ a <> b /\ b <> c /\ a <> c /\
  forall v, In v V -> v <> a -> v <> b -> v <> c -> outside_circle a b c v.


(** the least box around the points *)
Definition bounding (lx hx ly hy : R) (ps : list pt) : Prop :=
  (forall p, In p ps -> lx <= fst p <= hx /\ ly <= snd p <= hy) /\
  (exists p, In p ps /\ fst p = lx) /\ (exists p, In p ps /\ fst p = hx) /\
  (exists p, In p ps /\ snd p = ly) /\ (exists p, In p ps /\ snd p = hy).
(** the three auxiliary points: a triangle over the box enlarged by 10 *)
Definition frame (lx hx ly hy : R) : list pt :=
  let w := hx - lx + 20 in
  let h := hy - ly + 20 in
  [(lx - 10 - h, ly - 10); (hx + 10 + h, ly - 10); ((lx + hx) / 2, hy + 10 + w / 2)].
(** coordinates of a size that doubles can hold *)
Definition moderate (ps : list pt) : Prop := forall p, In p ps -> Rabs (fst p) <= 10 ^ 300 /\ Rabs (snd p) <= 10 ^ 300.

(** strictly inside a triangle *)
Definition inside (a b c q : pt) : Prop :=
  exists k0 k1 k2, 0 < k0 /\ 0 < k1 /\ 0 < k2 /\ k0 + k1 + k2 = 1 /\
    q = (k0 * fst a + k1 * fst b + k2 * fst c, k0 * snd a + k1 * snd b + k2 * snd c).

(** [ws] are the vertices of [vs] at a place where neither an earlier vertex nor
    one of [seen] is *)
Inductive first_places : list pt -> list (tvert RX) -> list (tvert RX) -> Prop :=
| fp_nil seen : first_places seen [] []
| fp_keep seen v vs ws : ~ In (loc v) seen -> first_places (loc v :: seen) vs ws -> first_places seen (v :: vs) (v :: ws)
| fp_skip seen v vs ws : In (loc v) seen -> first_places seen vs ws -> first_places seen (v :: vs) ws.
