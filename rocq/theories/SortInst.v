(** Insertion sort: the [Sorter] oracle can be implemented. *)
From Coq Require Import Permutation Sorted.
From Verif Require Import Base.

Section Ins.
Context {A : Type} (lt : A -> A -> bool).
Fixpoint ins (x : A) (l : list A) : list A :=
  match l with
  | [] => [x]
  | y :: t => if lt x y then x :: y :: t else y :: ins x t
  end.
Definition isort (l : list A) : list A := fold_right ins [] l.

Lemma ins_perm x l : Permutation (x :: l) (ins x l).
Proof.
  induction l as [|y t IH]; cbn; [constructor; constructor|].
  destruct (lt x y); [reflexivity|].
  rewrite perm_swap. constructor. exact IH.
Qed.
Lemma isort_perm l : Permutation l (isort l).
Proof.
  induction l as [|x t IH]; cbn; [constructor|].
  rewrite <- ins_perm. constructor. exact IH.
Qed.
Lemma swo_incl l l' : incl l' l -> strict_weak_on lt l -> strict_weak_on lt l'.
Proof.
  intros Hi (H1 & H2 & H3). split; [|split]; intros.
  - apply H1, Hi; assumption.
  - eapply H2 with b; try apply Hi; assumption.
  - eapply H3 with b; try apply Hi; assumption.
Qed.
Lemma ins_sorted x l : strict_weak_on lt (x :: l) ->
  StronglySorted (fun a b => lt b a = false) l -> StronglySorted (fun a b => lt b a = false) (ins x l).
Proof.
  intros Hsw Hs. induction Hs as [|y t Hs IH Hy]; cbn.
  - constructor; [constructor|constructor].
  - destruct (lt x y) eqn:E.
    + destruct Hsw as (H1 & H2 & H3).
      assert (Hyx : lt y x = false).
      { destruct (lt y x) eqn:E2; [|reflexivity].
        rewrite <- (H1 x) by (left; reflexivity). symmetry.
        apply H2 with y; cbn; auto. }
      constructor; [constructor; assumption|].
      constructor; [assumption|].
      rewrite Forall_forall in *. intros z Hz.
      apply H3 with y; cbn; auto.
    + constructor.
      * apply IH. eapply swo_incl; [|exact Hsw]. intros z [->|Hz]; cbn; auto.
      * rewrite Forall_forall in *. intros z Hz.
        apply (Permutation_in _ (Permutation_sym (ins_perm x t))) in Hz.
        destruct Hz as [<-|Hz]; auto.
Qed.
Lemma isort_sorted l : strict_weak_on lt l -> StronglySorted (fun a b => lt b a = false) (isort l).
Proof.
  induction l as [|x t IH]; cbn; intros Hsw; [constructor|].
  apply ins_sorted.
  - eapply swo_incl; [|exact Hsw]. intros z [->|Hz]; cbn; auto.
    right. apply (Permutation_in _ (Permutation_sym (isort_perm t))); exact Hz.
  - apply IH. eapply swo_incl; [|exact Hsw]. intros z Hz; right; exact Hz.
Qed.
End Ins.

Global Instance isorter : Sorter := {
  ssort := @isort;
  ssort_perm := fun A lt l _ => isort_perm lt l;
  ssort_sorted := @isort_sorted
}.
