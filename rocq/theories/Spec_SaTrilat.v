(** Specification of the stand-alone trilateration. *)
From Coq Require Import Reals.
From Verif Require Import Num NumReal LibR SaTrilat.
Set Implicit Arguments.

Section Gen.
Context {F : Type} {NF : Num F}.
Definition ids (ms : list (bmeas F)) : list string := map (@bm_id F) ms.
Definition distinct (ms : list (bmeas F)) : nat := List.length (nodup string_dec (ids ms)).
Definition from_id (id : string) (ms : list (bmeas F)) : list (bmeas F) :=
  filter (fun m => String.eqb (bm_id m) id) ms.
Definition on_map (bs : list (beacon F)) (id : string) : Prop := exists b, In b bs /\ bk_id b = id.
(** the first beacon of the list with that identifier *)
Definition first_beacon (bs : list (beacon F)) (id : string) (b : beacon F) : Prop :=
  exists l1 l2, bs = l1 ++ b :: l2 /\ bk_id b = id /\ Forall (fun c => bk_id c <> id) l1.
(** one entry per measured identifier, keeping the distance of one measurement *)
Definition one_per_id (ms k : list (bmeas F)) : Prop :=
  NoDup (ids k) /\ (forall id, In id (ids k) <-> In id (ids ms)) /\
  Forall (fun m => exists m0, In m0 ms /\ bm_id m0 = bm_id m /\ bm_dist m0 = bm_dist m) k.
Definition negatives (ms : list (bmeas F)) : Prop := exists m, In m ms /\ (bm_dist m <! f0) = true.
Definition nothing_known (bs : list (beacon F)) (ms : list (bmeas F)) : Prop := forall id, In id (ids ms) -> ~ on_map bs id.
End Gen.

Local Open Scope R_scope.
Definition mean (l : list R) : R := rsum l / INR (List.length l).
(** mean weighted by the inverse of the distance; entries are (distance, coordinate) *)
Definition inv_weighted (l : list (R * R)) : R :=
  rsum (map (fun dx => snd dx / fst dx) l) / rsum (map (fun dx => 1 / fst dx) l).

Definition good_meas (m : bmeas RX) : Prop := defined (bm_rssi m) /\ exists d, bm_dist m = Some d /\ 0 < d.
Definition good_beacon (b : beacon RX) : Prop := defined (bk_x b) /\ defined (bk_y b).
Definition dx (mb : bmeas RX * beacon RX) : R * R := (rval (bm_dist (fst mb)), rval (bk_x (snd mb))).
Definition dy (mb : bmeas RX * beacon RX) : R * R := (rval (bm_dist (fst mb)), rval (bk_y (snd mb))).

(** the measurements that take part: one per measured identifier on the map,
    each with its beacon *)
Definition takes_part (bs : list (beacon RX)) (ms : list (bmeas RX)) (k : list (bmeas RX * beacon RX)) : Prop :=
  k <> [] /\ NoDup (ids (map fst k)) /\
  (forall id, In id (ids (map fst k)) <-> In id (ids ms) /\ on_map bs id) /\
  Forall (fun mb => first_beacon bs (bm_id (fst mb)) (snd mb) /\
    exists m0, In m0 ms /\ bm_id m0 = bm_id (fst mb) /\ bm_dist m0 = bm_dist (fst mb)) k.

Definition dist2 (x y x' y' : R) : R := (x - x') ^ 2 + (y - y') ^ 2.

Section Session.
Context {SO : Sorter}.
(** a session: each element updates the measurements and calculates *)
Fixpoint session (s : trilat RX) (mss : list (list (bmeas RX))) : res (trilat RX) :=
  match mss with
  | [] => Ok s
  | ms :: t => '(s', _) <- calculate (tl_update s ms) ;; session s' t
  end.
(** what a fresh object reports for these measurements *)
Definition fresh_report (bs : list (beacon RX)) (ms : list (bmeas RX)) (x y : R) : Prop :=
  exists s e, calculate (mkTl bs ms f0 f0) = Ok (s, e) /\ tl_x s = Some x /\ tl_y s = Some y.
End Session.

(** distance and coordinates of a measurement and its beacon *)
Definition kd (mb : bmeas RX * beacon RX) : R := rval (bm_dist (fst mb)).
Definition kx (mb : bmeas RX * beacon RX) : R := rval (bk_x (snd mb)).
Definition ky (mb : bmeas RX * beacon RX) : R := rval (bk_y (snd mb)).
Definition real_pair (mb : bmeas RX * beacon RX) : Prop := defined (bm_dist (fst mb)) /\ good_beacon (snd mb).
Definition not_collinear (k : list (bmeas RX * beacon RX)) : Prop :=
  exists a b c, In a k /\ In b k /\ In c k /\ (kx b - kx a) * (ky c - ky a) - (kx c - kx a) * (ky b - ky a) <> 0.
(** exact distances from a point *)
Definition exact_from (x y : R) (mb : bmeas RX * beacon RX) : Prop := kd mb ^ 2 = dist2 x y (kx mb) (ky mb).
(** how far the squared distances from a point are from agreeing with the
    measured ones, up to the constant cancelled by the first beacon *)
Definition mismatch (p : bmeas RX * beacon RX) (t : list (bmeas RX * beacon RX)) (x y : R) : R :=
  rsum (map (fun mb => ((dist2 x y (kx p) (ky p) - kd p ^ 2) - (dist2 x y (kx mb) (ky mb) - kd mb ^ 2)) ^ 2) t).
