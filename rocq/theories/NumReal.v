(** Real numbers with an explicit undefined value: [None] is the result of
    every operation without a real value and absorbs everything, comparisons
    with it are false (as for NaN).  Rounding and overflow are not modelled. *)
From Coq Require Import Reals ZArith Bool Lra.
From Verif Require Export Num.
Open Scope R_scope.

Definition RX : Type := option R.

Definition rlift1 (f : R -> R) (a : RX) : RX :=
  match a with Some x => Some (f x) | None => None end.
Definition rlift2 (f : R -> R -> R) (a b : RX) : RX :=
  match a, b with Some x, Some y => Some (f x y) | _, _ => None end.
Definition rcmp (f : R -> R -> bool) (a b : RX) : bool :=
  match a, b with Some x, Some y => f x y | _, _ => false end.
Definition Rltb (x y : R) : bool := if Rlt_dec x y then true else false.
Definition Rleb (x y : R) : bool := if Rle_dec x y then true else false.
Definition Reqb (x y : R) : bool := if Req_EM_T x y then true else false.

Definition rdiv (a b : RX) : RX :=
  match a, b with
  | Some x, Some y => if Reqb y 0 then None else Some (x / y)
  | _, _ => None
  end.
Definition rsqrt (a : RX) : RX :=
  match a with Some x => if Rltb x 0 then None else Some (sqrt x) | None => None end.
Definition rlog (a : RX) : RX :=
  match a with Some x => if Rltb 0 x then Some (ln x) else None | None => None end.
Definition rasin (a : RX) : RX :=
  match a with
  | Some x => if Rleb (-1) x && Rleb x 1 then Some (asin x) else None
  | None => None
  end.
(** atan2 without signed zeros *)
Definition Ratan2 (y x : R) : R :=
  if Rltb 0 x then atan (y / x)
  else if Rltb x 0 then (if Rleb 0 y then atan (y / x) + PI else atan (y / x) - PI)
  else if Rltb 0 y then PI / 2 else if Rltb y 0 then - (PI / 2) else 0.
(** pow: negative base only with an integer exponent *)
Definition rpow (a b : RX) : RX :=
  match a, b with
  | Some x, Some y =>
      if Reqb y 0 then Some 1
      else if Rltb 0 x then Some (Rpower x y)
      else if Reqb x 0 then (if Rltb 0 y then Some 0 else None)
      else if Reqb y (IZR (Int_part y)) then Some (powerRZ x (Int_part y)) else None
  | _, _ => None
  end.
Definition Rtrunc (x : R) : Z := if Rltb x 0 then (- Int_part (- x))%Z else Int_part x.
(** cast to a 64-bit signed integer *)
Definition rtoZ (a : RX) : option Z :=
  match a with
  | Some x => let z := Rtrunc x in
              if (- 2 ^ 63 <=? z)%Z && (z <? 2 ^ 63)%Z then Some z else None
  | None => None
  end.

Global Instance num_real : Num RX := {
  fadd := rlift2 Rplus; fsub := rlift2 Rminus; fmul := rlift2 Rmult; fdiv := rdiv;
  fopp := rlift1 Ropp; fabs := rlift1 Rabs; fsqrt := rsqrt; fexp := rlift1 exp;
  flog := rlog; fsin := rlift1 sin; fcos := rlift1 cos; fasin := rasin;
  fatan2 := rlift2 Ratan2; fpow := rpow; fpowi := fun a n => rlift1 (fun x => x ^ n) a;
  ffloor := rlift1 (fun x => IZR (Int_part x));
  fcopysign := rlift2 (fun a b => if Rltb b 0 then - Rabs a else Rabs a);
  fofZ := fun z => Some (IZR z); ftoZ := rtoZ;
  fltb := rcmp Rltb; fleb := rcmp Rleb; feqb := rcmp Reqb;
  fisfinite := fun a => match a with Some _ => true | None => false end;
  fisnan := fun a => match a with Some _ => false | None => true end;
  fpi := Some PI; fnan := None;
  fdblmax := Some (IZR ((2 ^ 53 - 1) * 2 ^ 971));
  feps := Some (/ IZR (2 ^ 52))
}.

(** Rewriting lemmas *)
Lemma Rltb_true x y : Rltb x y = true <-> x < y.
Proof. unfold Rltb; destruct (Rlt_dec x y); split; intros H; try easy. Qed.
Lemma Rltb_false x y : Rltb x y = false <-> y <= x.
Proof. unfold Rltb; destruct (Rlt_dec x y); split; intros H; try easy; lra. Qed.
Lemma Rleb_true x y : Rleb x y = true <-> x <= y.
Proof. unfold Rleb; destruct (Rle_dec x y); split; intros H; try easy. Qed.
Lemma Rleb_false x y : Rleb x y = false <-> y < x.
Proof. unfold Rleb; destruct (Rle_dec x y); split; intros H; try easy; lra. Qed.
Lemma Reqb_true x y : Reqb x y = true <-> x = y.
Proof. unfold Reqb; destruct (Req_EM_T x y); split; intros H; easy. Qed.
Lemma Reqb_false x y : Reqb x y = false <-> x <> y.
Proof. unfold Reqb; destruct (Req_EM_T x y); split; intros H; easy. Qed.

Lemma rx_add x y : fadd (Some x : RX) (Some y) = Some (x + y). Proof. reflexivity. Qed.
Lemma rx_sub x y : fsub (Some x : RX) (Some y) = Some (x - y). Proof. reflexivity. Qed.
Lemma rx_mul x y : fmul (Some x : RX) (Some y) = Some (x * y). Proof. reflexivity. Qed.
Lemma rx_opp x : fopp (Some x : RX) = Some (- x). Proof. reflexivity. Qed.
Lemma rx_abs x : fabs (Some x : RX) = Some (Rabs x). Proof. reflexivity. Qed.
Lemma rx_div x y : y <> 0 -> fdiv (Some x : RX) (Some y) = Some (x / y).
Proof. intros H; cbn. apply Reqb_false in H; rewrite H; reflexivity. Qed.
Lemma rx_sqrt x : 0 <= x -> fsqrt (Some x : RX) = Some (sqrt x).
Proof. intros H; cbn. apply Rltb_false in H; rewrite H; reflexivity. Qed.
Lemma rx_ofZ z : fofZ z = (Some (IZR z) : RX). Proof. reflexivity. Qed.
Lemma rx_lit p q : IZR q <> 0 -> lit p q = (Some (IZR p / IZR q) : RX).
Proof. intros H; unfold lit; rewrite !rx_ofZ; apply rx_div; exact H. Qed.
Lemma rx_ltb x y : fltb (Some x : RX) (Some y) = Rltb x y. Proof. reflexivity. Qed.
Lemma rx_leb x y : fleb (Some x : RX) (Some y) = Rleb x y. Proof. reflexivity. Qed.
Lemma rx_eqb x y : feqb (Some x : RX) (Some y) = Reqb x y. Proof. reflexivity. Qed.
Lemma rx_f0 : f0 = (Some 0 : RX). Proof. reflexivity. Qed.
Lemma rx_f1 : f1 = (Some 1 : RX). Proof. reflexivity. Qed.
Lemma rx_fmax x y : fmax (Some x : RX) (Some y) = Some (Rmax x y).
Proof.
  unfold fmax; rewrite rx_ltb. destruct (Rltb x y) eqn:E.
  - apply Rltb_true in E. rewrite Rmax_right by lra. reflexivity.
  - apply Rltb_false in E. rewrite Rmax_left by lra. reflexivity.
Qed.
Lemma rx_fmin x y : fmin (Some x : RX) (Some y) = Some (Rmin x y).
Proof.
  unfold fmin; rewrite rx_ltb. destruct (Rltb y x) eqn:E.
  - apply Rltb_true in E. rewrite Rmin_right by lra. reflexivity.
  - apply Rltb_false in E. rewrite Rmin_left by lra. reflexivity.
Qed.
Lemma rx_powi x n : fpowi (Some x : RX) n = Some (x ^ n). Proof. reflexivity. Qed.
