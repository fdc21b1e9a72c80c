(** Vocabulary of C117: binary64 numbers as real numbers. *)
From Coq Require Import Reals ZArith SpecFloat.
From Verif Require Import Base NumFloat Preproc Spec_Preproc.
Set Implicit Arguments.
Local Open Scope list_scope.

(** the real number a double stands for *)
Definition sf_real (x : SF) : R :=
  match x with
  | S754_finite s m e => ((if s then - IZR (Zpos m) else IZR (Zpos m)) * powerRZ 2 e)%R
  | _ => 0%R
  end.
(** finite, in the one normal form of the format *)
Definition double (x : SF) : Prop :=
  valid_binary prec emax x = true /\ match x with S754_zero _ | S754_finite _ _ _ => True | _ => False end.
(** no double is nearer to [r] *)
Definition nearest (r : R) (x : SF) : Prop :=
  double x /\ forall y, double y -> (Rabs (sf_real x - r) <= Rabs (sf_real y - r))%R.
(** the double [z * 2^g] *)
Definition is_multiple (g z : Z) (x : SF) : Prop := x = binary_normalize prec emax z g false.
Definition unit_ok (g : Z) : Prop := (-900 <= g <= 900)%Z.
Definition zsum (l : list Z) : Z := fold_right Z.add 0%Z l.
(** so few and so small that no sum of them leaves the 53 bits *)
Definition in_53_bits (l : list Z) : Prop := (zsum (map Z.abs l) < 2 ^ 53)%Z /\ (Z.of_nat (List.length l) < 2 ^ 53)%Z.
(** exact mean of [z * 2^g] *)
Definition exact_mean (g : Z) (l : list Z) : R := (IZR (zsum l) * powerRZ 2 g / IZR (Z.of_nat (List.length l)))%R.
(** signals of a window are multiples [zr] of 2^g *)
Definition rssi_multiples (g : Z) (zr : stamped (radio SF) -> Z) (w : list (stamped (radio SF))) : Prop :=
  unit_ok g /\ forall m, In m w -> is_multiple g (zr m) (r_rssi (st_data m)).
Definition dist_multiples (g : Z) (zd : stamped (radio SF) -> Z) (w : list (stamped (radio SF))) : Prop :=
  unit_ok g /\ forall m, In m w -> is_multiple g (zd m) (r_dist (st_data m)).
Definition groups_fit (z : stamped (radio SF) -> Z) (w : list (stamped (radio SF))) : Prop :=
  forall tx, in_53_bits (map z (of_tx tx w)).

(** every packet of the buffer holds, for each of its transmitters, a double
    nearest to the exact mean of the window that C18 describes *)
Fixpoint outs_nearest (g : Z) (zr : stamped (radio SF) -> Z) (c : bufcfg) (w : win SF) (ops : list (bop SF)) (outs : list (list (radio SF))) : Prop :=
  match ops, outs with
  | [], [] => True
  | o :: t, out :: outs =>
      match o with
      | BAdd _ => out = []
      | BExtract _ =>
          if win_ready c w
          then (forall tx, In tx (map (@r_id SF) out) <-> exists m, In m (win_content c w) /\ r_id (st_data m) = tx) /\
               forall o, In o out -> nearest (exact_mean g (map zr (of_tx (r_id o) (win_content c w)))) (r_rssi o)
          else out = []
      end /\ outs_nearest g zr c (win_step c w o) t outs
  | _, _ => False
  end.
