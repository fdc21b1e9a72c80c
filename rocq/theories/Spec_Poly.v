(** Vocabulary of the linear solver and polynomial properties (C110, C111),
    written without the model of polynomial_fit.cpp. *)
From Coq Require Import Reals.
From Verif Require Import Base NumReal LibR.
Set Implicit Arguments.
Local Open Scope R_scope.

(** the sum of f 0 .. f (n-1) *)
Definition sumn (n : nat) (f : nat -> R) : R := rsum (map f (seq 0 n)).
(** x solves the n equations A x = b *)
Definition solves (n : nat) (A : nat -> nat -> R) (b x : nat -> R) : Prop :=
  forall i, (i < n)%nat -> sumn n (fun j => A i j * x j) = b i.
(** the quadratic form of A vanishes at no vector but zero *)
Definition definite (n : nat) (A : nat -> nat -> R) : Prop :=
  forall y : nat -> R, (exists i, (i < n)%nat /\ y i <> 0) ->
  sumn n (fun i => sumn n (fun j => y i * A i j * y j)) <> 0.
(** the extended matrix, right-hand side in column n *)
Definition extended (n : nat) (A : nat -> nat -> R) (b : nat -> R) : nat -> nat -> RX :=
  fun i j => Some (if Nat.eqb j n then b i else A i j).

(** the value at x of the polynomial with coefficients cs, constant term first *)
Definition peval (cs : list R) (x : R) : R := fold_right (fun c v => c + x * v) 0 cs.
(** sum of the squared residuals of the samples *)
Definition sse (cs : list R) (ps : list (R * R)) : R :=
  rsum (map (fun p => (snd p - peval cs (fst p)) * (snd p - peval cs (fst p))) ps).
(** the samples have at least n different times *)
Definition distinct_times (n : nat) (ps : list (R * R)) : Prop :=
  exists ts, NoDup ts /\ List.length ts = n /\ incl ts (map fst ps).
(** all samples are of one time *)
Definition one_time (ps : list (R * R)) : Prop := forall u v, In u ps -> In v ps -> fst u = fst v.
