(** Specifications for the KNN weighting (C48-C51), over the reals.  Only the
    data types of the model are used. *)
From Coq Require Import Reals List String.
From Verif Require Import Types NumReal LibR Knn.
Import ListNotations.
Set Implicit Arguments.
Local Open Scope R_scope.
Local Open Scope list_scope.

Definition real_radio (m : radio RX) : Prop := defined (r_rssi m) /\ defined (r_power m).

(** transmitted power assumed: -10 dBm unless a positive power is reported *)
Definition assumed_power (m : radio RX) : R :=
  if Rlt_dec (rval (r_power m)) (1 / 100000) then -10 else rval (r_power m).
(** 6 dB stronger: weight multiplied by 10^0.36 *)
Definition trust (m : radio RX) : R := Rpower 10 (6 / 100 * (rval (r_rssi m) - assumed_power m)).

(** the share of a transmitter: the last measurement of it counts, the
    normaliser contains all measurements *)
Definition share (ms : list (radio RX)) (id : string) : R :=
  match find (fun m => String.eqb id (r_id m)) (rev ms) with
  | Some m => trust m / rsum (map trust ms)
  | None => 0
  end.

(** what a reference point has in common with the measurements: the
    transmitter, the measured and the stored strength *)
Record common := mkCommon { c_tx : string; c_meas : R; c_db : R }.
Definition commons (rm : rmap RX) (ms : list (radio RX)) (p : string) : list common :=
  flat_map (fun m =>
    flat_map (fun e =>
      if String.eqb (fst e) (r_id m) && String.eqb (fst (snd e)) p
      then [mkCommon (r_id m) (rval (r_rssi m)) (rval (ss_mean (snd (snd e))))] else []) rm) ms.

(** unordered pairs *)
Fixpoint pairs {A : Type} (l : list A) : list (A * A) :=
  match l with
  | [] => []
  | x :: t => map (fun y => (x, y)) t ++ pairs t
  end.

(** difference mode: the penalty of two common transmitters is the mismatch
    of the strength differences *)
Definition pair_mismatch (c d : common) : R := Rabs ((c_db c - c_db d) - (c_meas c - c_meas d)).
Definition diff_total (w : string -> R) (l : list common) : R :=
  rsum (map (fun cd => Rmax (pair_mismatch (fst cd) (snd cd) * (w (c_tx (fst cd)) * w (c_tx (snd cd)))) (1 / 1000000)) (pairs l)).
Definition diff_norm (w : string -> R) (l : list common) : R :=
  rsum (map (fun cd => w (c_tx (fst cd)) * w (c_tx (snd cd))) (pairs l)).
(** plain mode: the code adds the stored and the measured strength *)
Definition plain_total (w : string -> R) (l : list common) : R :=
  rsum (map (fun c => Rmax (Rabs (c_db c + c_meas c) * w (c_tx c)) (1 / 1000000)) l).
Definition plain_norm (w : string -> R) (l : list common) : R := rsum (map (fun c => w (c_tx c)) l).

Definition point_weight_of (diff : bool) (w : string -> R) (l : list common) : R :=
  let W := if diff then diff_total w l else plain_total w l in
  let N := if diff then diff_norm w l else plain_norm w l in
  let pen := if Rlt_dec (1 / 100000000) N then W / N else W in
  INR (List.length l) / sqrt pen.

Definition real_map (rm : rmap RX) : Prop := Forall (fun e => defined (ss_mean (snd (snd e)))) rm.

(** ** positions *)
(** weights of the points, 0 when a point has none *)
Definition wt (w : list (string * RX)) (id : string) : R :=
  match find (fun e => String.eqb id (fst e)) w with Some e => rval (snd e) | None => 0 end.
Definition real_weights (w : list (string * RX)) : Prop := Forall (fun e => exists x, snd e = Some x /\ 0 <= x) w.
Definition tri_total (w : list (string * RX)) (t : tri) : R := wt w (tr1 t) + wt w (tr2 t) + wt w (tr3 t).
(** the first triangle of largest total *)
Definition heaviest (w : list (string * RX)) (ts : list tri) (t : tri) : Prop :=
  exists l1 l2, ts = l1 ++ t :: l2 /\ (forall u, In u l1 -> tri_total w u < tri_total w t) /\
    (forall u, In u l2 -> tri_total w u <= tri_total w t).
Definition real_point (p : XY RX) (x y : R) : Prop := p = mkXY (Some x : RX) (Some y : RX).
(** the reference point of that name: the first one of the list *)
Definition point_named (rps : list (refpoint RX)) (id : string) : option (XY RX) :=
  match find (fun r => String.eqb id (rp_id r)) rps with Some r => Some (rp_pt r) | None => None end.
