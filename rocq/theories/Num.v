(** Numbers.  The C++ code computes in [double]; the model is polymorphic in
    the number type.  [Num] is a bag of operations without laws: a theorem
    proved for every [Num F] holds for IEEE doubles whatever the rounding and
    whatever libm computes.  Instances: [NumReal.v] (reals with an explicit
    undefined value) and [NumFloat.v] (IEEE-754 binary64). *)
From Coq Require Import ZArith Bool.

Class Num (F : Type) := {
  fadd : F -> F -> F;
  fsub : F -> F -> F;
  fmul : F -> F -> F;
  fdiv : F -> F -> F;
  fopp : F -> F;
  fabs : F -> F;                 (* std::fabs / std::abs *)
  fsqrt : F -> F;
  fexp : F -> F;
  flog : F -> F;                 (* std::log, natural *)
  fsin : F -> F;
  fcos : F -> F;
  fasin : F -> F;
  fatan2 : F -> F -> F;
  fpow : F -> F -> F;            (* std::pow(double, double) *)
  fpowi : F -> nat -> F;         (* std::pow(double, non-negative int) *)
  ffloor : F -> F;
  fcopysign : F -> F -> F;
  fofZ : Z -> F;                 (* integer to double conversion *)
  ftoZ : F -> option Z;          (* (long long) cast; None: out of range, UB *)
  fltb : F -> F -> bool;
  fleb : F -> F -> bool;
  feqb : F -> F -> bool;
  fisfinite : F -> bool;
  fisnan : F -> bool;
  fpi : F;                       (* M_PI *)
  fnan : F;                      (* NAN *)
  fdblmax : F;                   (* std::numeric_limits<double>::max() *)
  feps : F;                      (* std::numeric_limits<double>::epsilon() *)
}.

Infix "+!" := fadd (at level 50, left associativity).
Infix "-!" := fsub (at level 50, left associativity).
Infix "*!" := fmul (at level 40, left associativity).
Infix "/!" := fdiv (at level 40, left associativity).
Infix "<!" := fltb (at level 70, no associativity).
Infix "<=!" := fleb (at level 70, no associativity).
Infix "=!" := feqb (at level 70, no associativity).

Section Derived.
Context {F : Type} {NF : Num F}.

(** Decimal literals p/q with p, q exactly representable: the correctly
    rounded quotient is the double the literal denotes. *)
Definition lit (p q : Z) : F := fofZ p /! fofZ q.

Definition f0 : F := fofZ 0.
Definition f1 : F := fofZ 1.

(** std::max(a,b) = (a < b) ? b : a;  std::min(a,b) = (b < a) ? b : a *)
Definition fmax (a b : F) : F := if a <! b then b else a.
Definition fmin (a b : F) : F := if b <! a then b else a.

(** M_PI_2 is exactly M_PI / 2 as a double *)
Definition fpi2 : F := fpi /! fofZ 2.

Definition fneb (a b : F) : bool := negb (a =! b).
Definition fofnat (n : nat) : F := fofZ (Z.of_nat n).

(** std::accumulate(first, last, 0.0, sum + f(x)) *)
Definition fsum {A : Type} (f : A -> F) (l : list A) : F :=
  List.fold_left (fun s x => s +! f x) l f0.
End Derived.
