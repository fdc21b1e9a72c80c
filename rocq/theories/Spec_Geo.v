(** Vocabulary of the geometry, conversion and level properties (C39-C43). *)
From Coq Require Import Reals.
From Verif Require Import Lib NumReal LevelModel Spec_Post.
Set Implicit Arguments.
Local Open Scope R_scope.

(** plane points and segments over the reals *)
Definition pt := (R * R)%type.
Definition rx_pt (p : pt) : XY RX := mkXY (Some (fst p)) (Some (snd p)).
(** point at fraction [k] of the segment *)
Definition along (a b : pt) (k : R) : pt := (fst a + k * (fst b - fst a), snd a + k * (snd b - snd a)).
Definition pdist (a b : pt) : R := rdist (fst a) (snd a) (fst b) (snd b).
Definition len2 (a b : pt) : R := (fst b - fst a) * (fst b - fst a) + (snd b - snd a) * (snd b - snd a).
(** the degeneracy threshold of geometry.h:15 *)
Definition eps : R := 1 / 100000000.
(** twice the oriented area of the triangle *)
Definition cross (a b c : pt) : R := (fst b - fst a) * (snd c - snd a) - (snd b - snd a) * (fst c - fst a).
(** the directions of the segments are not parallel: determinant *)
Definition dirdet (p q a b : pt) : R := (fst q - fst p) * (snd b - snd a) - (fst b - fst a) * (snd q - snd p).

(** segments that cross in a point interior to both *)
Definition cross_properly (a b c d : pt) : Prop :=
  dirdet a b c d <> 0 /\ exists k l, 0 < k < 1 /\ 0 < l < 1 /\ along a b k = along c d l.
(** segments parallel to no axis *)
Definition oblique (a b : pt) : Prop := fst a <> fst b /\ snd a <> snd b.

(** graph with real vertices: every edge refers to two of them *)
Definition real_graph (g : graph (XY RX)) (vs : list pt) : Prop :=
  map snd (g_verts g) = map rx_pt vs /\ forall e, In e (g_edges g) -> has_vertex g (fst e) = true /\ has_vertex g (snd e) = true.
(** the end points of an edge *)
Definition edge_of (g : graph (XY RX)) (vs : list pt) (u v : pt) : Prop :=
  exists i j, In (i, j) (g_edges g) /\ nth_error vs (Z.to_nat i) = Some u /\ nth_error vs (Z.to_nat j) = Some v.

(** graphs made by the public interface *)
Inductive graph_built {P : Type} : graph P -> Prop :=
  | GB0 : graph_built graph0
  | GBv g p : graph_built g -> graph_built (add_vertex g p)
  | GBe g i j g' : graph_built g -> add_edge g i j = Ok g' -> graph_built g'.
(** the edges added by a sequence of accepted addEdge calls *)
Inductive edges_added {P : Type} : graph P -> list (Z * Z) -> Prop :=
  | EA0 : edges_added graph0 []
  | EAv g p l : edges_added g l -> edges_added (add_vertex g p) l
  | EAe g i j g' l : edges_added g l -> add_edge g i j = Ok g' -> edges_added g' ((i, j) :: l).

(** congruence of longitudes *)
Definition congruent (a b : R) : Prop := exists k : Z, b = a + 360 * IZR k.
(** the longitude range a single correction can repair *)
Definition near_range (l : R) : Prop := -540 < l <= 540.
Definition lon_range (l : R) : Prop := -180 < l <= 180.
Definition rx_geo (p : pt) : Geo RX := mkGeo (Some (fst p)) (Some (snd p)).
(** metres per turn at the latitude of the binding point *)
Definition circ_at (b : pt) : R := 40075160 * cos (fst b * PI / 180).

(** order of the stored edges *)
Definition edge_lt (a b : Z * Z) : Prop := (fst a < fst b)%Z \/ (fst a = fst b /\ snd a < snd b)%Z.

(** [x] is the first element of [l] with [q] *)
Definition first_with {A : Type} (q : A -> Prop) (l : list A) (x : A) : Prop :=
  exists pre post, l = pre ++ x :: post /\ q x /\ Forall (fun y => ~ q y) pre.
(** the two predicates at real points *)
Definition gi (p q a b : pt) : RX * option (XY RX) :=
  get_intersection (Some (fst p) : RX) (Some (snd p)) (Some (fst q)) (Some (snd q)) (Some (fst a)) (Some (snd a)) (Some (fst b)) (Some (snd b)).
Definition ci (a b c d : pt) : bool :=
  check_intersection (Some (fst a) : RX) (Some (snd a)) (Some (fst b)) (Some (snd b)) (Some (fst c)) (Some (snd c)) (Some (fst d)) (Some (snd d)).
(** closed box: lower left and upper right corner *)
Definition in_rbox (b : pt * pt) (p : pt) : Prop :=
  fst (fst b) <= fst p <= fst (snd b) /\ snd (fst b) <= snd p <= snd (snd b).
