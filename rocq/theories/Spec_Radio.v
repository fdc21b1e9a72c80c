(** Specifications for the particle likelihood, the zone estimator and the
    trilateration (C54-C57), over the reals. *)
From Coq Require Import Reals List String Sorted Permutation.
From Verif Require Import Types NumReal LibR.
Import ListNotations.
Set Implicit Arguments.
Local Open Scope R_scope.
Local Open Scope list_scope.

(** ** C54 *)
Definition plane_dist (a b : XY RX) : R :=
  sqrt ((rval (px a) - rval (px b)) * (rval (px a) - rval (px b)) + (rval (py a) - rval (py b)) * (rval (py a) - rval (py b))).
Definition real_xy (p : XY RX) : Prop := defined (px p) /\ defined (py p).
(** unnormalised likelihood of a particle *)
Definition closeness (c q : XY RX) : R := 1 / (1 / 10 + plane_dist q c).

(** ** C55 *)
Definition place_of (l : level RX) (id : string) : option (XYZ RX) :=
  match find (fun e => String.eqb id (fst e)) (l_txs l) with Some e => Some (t_pt (snd e)) | None => None end.
(** the first strongest measurement of a transmitter of the level *)
Definition strongest (l : level RX) (ms : list (radio RX)) (m : radio RX) : Prop :=
  place_of l (r_id m) <> None /\
  exists m1 m2, ms = m1 ++ m :: m2 /\
    (forall u, In u m1 -> place_of l (r_id u) <> None -> rval (r_rssi u) < rval (r_rssi m)) /\
    (forall u, In u m2 -> place_of l (r_id u) <> None -> rval (r_rssi u) <= rval (r_rssi m)).

(** ** C56 *)
Definition space_dist (a b : XYZ RX) : R :=
  sqrt ((rval (zx b) - rval (zx a)) * (rval (zx b) - rval (zx a)) + (rval (zy b) - rval (zy a)) * (rval (zy b) - rval (zy a))
        + (rval (zz b) - rval (zz a)) * (rval (zz b) - rval (zz a))).
Definition real_xyz (p : XYZ RX) : Prop := defined (zx p) /\ defined (zy p) /\ defined (zz p).
(** the spheres around two measured transmitters meet *)
Definition spheres_meet (l : level RX) (a b : radio RX) : Prop :=
  exists p q, place_of l (r_id a) = Some p /\ place_of l (r_id b) = Some q /\
    space_dist p q <= rval (r_dist a) + rval (r_dist b).
Definition by_dist (a b : radio RX) : Prop := rval (r_dist a) <= rval (r_dist b).
(** measurements the filter can handle: every transmitter is on the level *)
Definition measured_on (l : level RX) (ms : list (radio RX)) : Prop :=
  Forall (fun m => defined (r_dist m) /\ exists p, place_of l (r_id m) = Some p /\ real_xyz p) ms.

(** ** C57 *)
(** [v] solves the linear equations [A v = b] *)
Definition solves (A : list (RX * RX * RX)) (b : list RX) (v : RX * RX * RX) : Prop :=
  let '(v1, v2, v3) := v in
  defined v1 /\ defined v2 /\ defined v3 /\
  Forall2 (fun (r : RX * RX * RX) c => let '(a1, a2, a3) := r in
    rval a1 * rval v1 + rval a2 * rval v2 + rval a3 * rval v3 = rval c) A b.
(** the difference of two sphere equations, relative to the first centre *)
Definition sphere_row (l : level RX) (m1 m : radio RX) : (RX * RX * RX) * RX :=
  match place_of l (r_id m1), place_of l (r_id m) with
  | Some p, Some q =>
      let dx := rval (zx q) - rval (zx p) in
      let dy := rval (zy q) - rval (zy p) in
      let dz := rval (zz q) - rval (zz p) in
      ((Some dx, Some dy, Some dz),
       Some ((rval (r_dist m1) * rval (r_dist m1) - rval (r_dist m) * rval (r_dist m) + (dx * dx + dy * dy + dz * dz)) / 2))
  | _, _ => ((None, None, None), None)
  end.
(** [svd] solves the linear system of the spheres [ms] whichever of them comes first *)
Definition solver_for (svd : list (RX * RX * RX) -> list RX -> RX * RX * RX) (l : level RX) (ms : list (radio RX)) : Prop :=
  forall m1 rest, Permutation ms (m1 :: rest) ->
    let rows := map (sphere_row l m1) rest in
    solves (map fst rows) (map snd rows) (svd (map fst rows) (map snd rows)).
(** all distances are those of the point [P] *)
Definition exact_from (l : level RX) (P : XYZ RX) (ms : list (radio RX)) : Prop :=
  real_xyz P /\
  Forall (fun m : radio RX => exists p, place_of l (r_id m) = Some p /\ real_xyz p /\ r_dist m = Some (space_dist p P)) ms.
(** what the code adds up for one transmitter, when it is west of the solution *)
Definition coded_term (l : level RX) (x y : R) (m : radio RX) : R :=
  match place_of l (r_id m) with
  | Some p => (rval (zz p) + sqrt (rval (r_dist m) * rval (r_dist m)
                                   - Rpower (x - rval (zx p)) (2 - (y - rval (zy p)) * (y - rval (zy p))))) / rval (r_dist m)
  | None => 0
  end.
Definition coded_real (l : level RX) (x y : R) (m : radio RX) : Prop :=
  exists p, place_of l (r_id m) = Some p /\ rval (zx p) < x /\ 0 < rval (r_dist m) /\
    Rpower (x - rval (zx p)) (2 - (y - rval (zy p)) * (y - rval (zy p))) <= rval (r_dist m) * rval (r_dist m).
