(** Lemmas about the real instance. *)
From Coq Require Import Reals Lra Lia List Permutation Psatz.
From Verif Require Export NumReal.
From Verif Require Import Lib.
Import ListNotations.
Set Implicit Arguments.
Open Scope R_scope.

Definition rsum (l : list R) : R := fold_right Rplus 0 l.
Lemma rsum_cons x l : rsum (x :: l) = x + rsum l. Proof. reflexivity. Qed.
Lemma rsum_nil : rsum [] = 0. Proof. reflexivity. Qed.
Arguments rsum : simpl never.
Lemma rsum_app l1 l2 : rsum (l1 ++ l2) = rsum l1 + rsum l2.
Proof. induction l1 as [|x t IH]; cbn [app]; rewrite ?rsum_cons, ?rsum_nil; lra. Qed.
Lemma rsum_perm l1 l2 : Permutation l1 l2 -> rsum l1 = rsum l2.
Proof. induction 1; rewrite ?rsum_cons; lra. Qed.

Lemma fsum_from A (f : A -> RX) (g : A -> R) l s :
  (forall x, In x l -> f x = Some (g x)) ->
  fold_left (fun s x => fadd s (f x)) l (Some s : RX) = Some (s + rsum (map g l)).
Proof.
  revert s; induction l as [|x t IH]; intros s H; cbn [fold_left map].
  - rewrite rsum_nil. f_equal; lra.
  - rewrite (H x) by (left; reflexivity). rewrite rx_add, IH by (intros y Hy; apply H; right; exact Hy).
    rewrite rsum_cons. f_equal; lra.
Qed.
Lemma fsum_real A (f : A -> RX) (g : A -> R) l :
  (forall x, In x l -> f x = Some (g x)) -> fsum f l = Some (rsum (map g l)).
Proof. intros H. unfold fsum. rewrite rx_f0, (@fsum_from _ f g) by exact H. f_equal; lra. Qed.

(** the real inside, 0 when undefined; only used with a proof of definedness *)
Definition rval (a : RX) : R := match a with Some x => x | None => 0 end.
Definition defined (a : RX) : Prop := exists x, a = Some x.
Lemma rval_some a : defined a -> a = Some (rval a).
Proof. intros [x ->]; reflexivity. Qed.
Lemma fsum_rval A (f : A -> RX) l :
  (forall x, In x l -> defined (f x)) -> fsum f l = Some (rsum (map (fun x => rval (f x)) l)).
Proof. intros H. apply fsum_real. intros x Hx. apply rval_some, H, Hx. Qed.

Lemma fofnat_real n : fofnat n = (Some (INR n) : RX).
Proof. unfold fofnat. rewrite rx_ofZ, <- INR_IZR_INZ. reflexivity. Qed.

Lemma rsum_bounds l lo hi : (forall x, In x l -> lo <= x <= hi) ->
  INR (List.length l) * lo <= rsum l <= INR (List.length l) * hi.
Proof.
  induction l as [|x t IH]; intros H.
  - rewrite rsum_nil. cbn [List.length INR]. lra.
  - rewrite rsum_cons. cbn [List.length]. rewrite S_INR.
    assert (Hx := H x (or_introl eq_refl)).
    assert (Ht := IH (fun y Hy => H y (or_intror Hy))). lra.
Qed.
Lemma rsum_nonneg l : (forall x, In x l -> 0 <= x) -> 0 <= rsum l.
Proof.
  induction l as [|x t IH]; intros H; [rewrite rsum_nil; lra|]. rewrite rsum_cons.
  assert (Hx := H x (or_introl eq_refl)). assert (Ht := IH (fun y Hy => H y (or_intror Hy))). lra.
Qed.
Lemma rsum_pos l : l <> [] -> (forall x, In x l -> 0 < x) -> 0 < rsum l.
Proof.
  intros Hn H. destruct l as [|x t]; [congruence|]. rewrite rsum_cons.
  assert (Hx := H x (or_introl eq_refl)).
  assert (Ht : 0 <= rsum t) by (apply rsum_nonneg; intros y Hy; left; apply H; right; exact Hy). lra.
Qed.
Lemma rsum_scale k l : rsum (map (fun x => x * k) l) = rsum l * k.
Proof. induction l as [|x t IH]; cbn [map]; rewrite ?rsum_cons, ?rsum_nil; lra. Qed.
Lemma rsum_div k l : rsum (map (fun x => x / k) l) = rsum l / k.
Proof. unfold Rdiv. apply rsum_scale. Qed.
