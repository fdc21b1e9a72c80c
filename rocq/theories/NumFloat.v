(** IEEE-754 binary64 from the standard library's executable specification
    (Coq.Floats.SpecFloat, no axioms).  The libm functions are a parameter. *)
From Coq Require Import ZArith Bool SpecFloat.
From Verif Require Export Num.

Definition SF : Type := spec_float.
Definition prec : Z := 53.
Definition emax : Z := 1024.

(** exp, log, sin, cos, asin, atan2, pow of the platform *)
Record transc := mkTransc {
  tr_exp : SF -> SF; tr_log : SF -> SF; tr_sin : SF -> SF; tr_cos : SF -> SF;
  tr_asin : SF -> SF; tr_atan2 : SF -> SF -> SF; tr_pow : SF -> SF -> SF }.

(** integer to double, rounding to nearest even *)
Definition sf_ofZ (z : Z) : SF := binary_normalize prec emax z 0 false.

(** floor of +-m * 2^e as an integer *)
Definition sf_floorZ (s : bool) (m : positive) (e : Z) : Z :=
  let z := if s then Zneg m else Zpos m in
  if (0 <=? e)%Z then (z * 2 ^ e)%Z else (z / 2 ^ (- e))%Z.
Definition sf_floor (x : SF) : SF :=
  match x with
  | S754_finite s m e => if (0 <=? e)%Z then x else
      match sf_floorZ s m e with
      | Z0 => S754_zero s
      | z => sf_ofZ z
      end
  | _ => x
  end.
Definition sf_truncZ (s : bool) (m : positive) (e : Z) : Z :=
  let a := if (0 <=? e)%Z then (Zpos m * 2 ^ e)%Z else (Zpos m / 2 ^ (- e))%Z in
  if s then (- a)%Z else a.
(** cast to a 64-bit signed integer; None outside the range *)
Definition sf_toZ (x : SF) : option Z :=
  match x with
  | S754_zero _ => Some 0%Z
  | S754_finite s m e =>
      let z := sf_truncZ s m e in
      if (- 2 ^ 63 <=? z)%Z && (z <? 2 ^ 63)%Z then Some z else None
  | _ => None
  end.
Definition sf_sign (x : SF) : bool :=
  match x with
  | S754_zero s | S754_infinity s | S754_finite s _ _ => s
  | S754_nan => false
  end.
Definition sf_copysign (a b : SF) : SF :=
  let a := SFabs a in if sf_sign b then SFopp a else a.

Definition num_float (t : transc) : Num SF := {|
  fadd := SFadd prec emax; fsub := SFsub prec emax; fmul := SFmul prec emax;
  fdiv := SFdiv prec emax; fopp := SFopp; fabs := SFabs; fsqrt := SFsqrt prec emax;
  fexp := tr_exp t; flog := tr_log t; fsin := tr_sin t; fcos := tr_cos t;
  fasin := tr_asin t; fatan2 := tr_atan2 t; fpow := tr_pow t;
  fpowi := fun x n => tr_pow t x (sf_ofZ (Z.of_nat n));
  ffloor := sf_floor; fcopysign := sf_copysign; fofZ := sf_ofZ; ftoZ := sf_toZ;
  fltb := SFltb; fleb := SFleb; feqb := SFeqb;
  fisfinite := fun x => match x with S754_zero _ | S754_finite _ _ _ => true | _ => false end;
  fisnan := fun x => match x with S754_nan => true | _ => false end;
  (* M_PI = 884279719003555 / 2^48 *)
  fpi := binary_normalize prec emax 884279719003555 (-48) false;
  fnan := S754_nan;
  fdblmax := S754_finite false (2 ^ 53 - 1) 971;
  feps := S754_finite false (2 ^ 52) (-104)
|}.

(** A stand-in libm for concrete examples: exact where the examples use it *)
Definition tr0 : transc := mkTransc
  (fun _ => sf_ofZ 1) (fun _ => sf_ofZ 0) (fun _ => sf_ofZ 0) (fun _ => sf_ofZ 1)
  (fun _ => sf_ofZ 0) (fun _ _ => sf_ofZ 0) (fun x _ => x).
