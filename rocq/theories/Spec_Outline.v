(** Vocabulary of the level outline properties (C94, C95): rings and polygons of
    real points, rays and their crossings. *)
From Coq Require Import Reals.
From Verif Require Import Lib NumReal LevelModel Spec_Post Spec_Geo Outline.
Set Implicit Arguments.
Local Open Scope R_scope.
Local Open Scope list_scope.

(** consecutive points of a ring *)
Definition edge (r : list pt) (a b : pt) : Prop := exists l1 l2, r = l1 ++ a :: b :: l2.
Definition on_segment (p a b : pt) : Prop := exists k, 0 <= k <= 1 /\ p = along a b k.
Definition on_ring (r : list pt) (p : pt) : Prop := exists a b, edge r a b /\ on_segment p a b.
(** a ring that ends where it began *)
Definition closed (r : list pt) : Prop := (4 <= List.length r)%nat /\ exists a m, r = a :: m ++ [a].

(** the point at distance [s] along the ray from [p] in direction [e] *)
Definition ray (p e : pt) (s : R) : pt := (fst p + s * fst e, snd p + s * snd e).
Definition turns_left (e a b : pt) : Prop := 0 < fst e * (snd b - snd a) - snd e * (fst b - fst a).
(** how a segment crosses a ray that passes none of its ends *)
Inductive crossing (p e a b : pt) : Z -> Prop :=
| cr_left s k : 0 < s -> 0 < k < 1 -> along a b k = ray p e s -> turns_left e a b -> crossing p e a b 1
| cr_right s k : 0 < s -> 0 < k < 1 -> along a b k = ray p e s -> turns_left e b a -> crossing p e a b (-1)
| cr_none : (forall s k, 0 < s -> 0 <= k <= 1 -> along a b k <> ray p e s) -> crossing p e a b 0.
(** signed number of crossings *)
Inductive crossings (p e : pt) : list pt -> Z -> Prop :=
| cs_one a : crossings p e [a] 0
| cs_more a b r n m : crossing p e a b n -> crossings p e (b :: r) m -> crossings p e (a :: b :: r) (n + m).
(** the ray passes no vertex *)
Definition free_ray (r : list pt) (p e : pt) : Prop := e <> (0, 0) /\ forall a s, In a r -> 0 < s -> a <> ray p e s.
(** strictly inside: a ray from the point crosses the ring, crossings in
    opposite directions cancelling *)
Definition encloses (r : list pt) (p : pt) : Prop :=
  ~ on_ring r p /\ exists e n, free_ray r p e /\ crossings p e r n /\ n <> 0%Z.

(** a polygon of real points *)
Definition rshape := (list pt * list (list pt))%type.
Definition rx_ring (r : list pt) : ring RX := map rx_pt r.
Definition rx_shape (s : rshape) : shape RX := mkShape (rx_ring (fst s)) (map rx_ring (snd s)).
(** a ring as it is drawn, and closed *)
Definition drawn (r c : list pt) : Prop :=
  closed c /\ (r = c \/ exists a m, r = a :: m /\ last m a <> a /\ c = r ++ [a]).
Definition drawn_shape (s c : rshape) : Prop := drawn (fst s) (fst c) /\ Forall2 drawn (snd s) (snd c).

(** in the polygon: on or in the outer ring and not in a hole *)
Definition in_shape (s : rshape) (p : pt) : Prop :=
  on_ring (fst s) p \/ (encloses (fst s) p /\ forall h, In h (snd s) -> ~ encloses h p).
(** no point of a hole lies on or in another hole *)
Definition holes_apart (s : rshape) : Prop :=
  forall h1 h2 p, In h1 (snd s) -> In h2 (snd s) -> encloses h1 p -> (on_ring h2 p \/ encloses h2 p) -> h1 = h2.

(** the polygons of a map file: latitude and longitude *)
Definition rx_poly (s : rshape) : poly RX := mkPoly (map rx_geo (fst s)) (map (map rx_geo) (snd s)).
(** [b] is the smallest box around the points *)
Definition least_box (b : pt * pt) (ps : list pt) : Prop :=
  (forall p, In p ps -> in_rbox b p) /\
  (forall c, (forall p, In p ps -> in_rbox c p) -> in_rbox c (fst b) /\ in_rbox c (snd b)).
(** the segment meets no edge *)
Definition apart (r : list pt) (p q : pt) : Prop :=
  forall a b k l, edge r a b -> 0 <= k <= 1 -> 0 <= l <= 1 -> along p q k <> along a b l.

(** all outer points of a level's polygons *)
Definition outline (ss : list rshape) : list pt := List.concat (map fst ss).
Definition all_points (s : rshape) : list pt := fst s ++ List.concat (snd s).
(** the level has the polygons [ss] *)
Definition outlined (g : geolevel RX) (ss : list rshape) : Prop :=
  gl_box g = fst (level_geom (map rx_poly ss)) /\ gl_allowed g = snd (level_geom (map rx_poly ss)).
(** the polygons [ss], with the box [b] and the closed polygons [cs], are a
    level away from the poles and the antimeridian *)
Definition drawn_level (b : pt * pt) (ss cs : list rshape) : Prop :=
  Forall2 drawn_shape ss cs /\ Forall holes_apart cs /\ ss <> [] /\ least_box b (outline ss) /\
  -90 < fst (fst b) < 90 /\ snd (snd b) - snd (fst b) <= 180 /\
  (forall s x, In s ss -> In x (all_points s) -> lon_range (snd x - snd (fst b))).
