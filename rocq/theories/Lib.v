(** General lemmas used by the proofs. *)
From Coq Require Import Permutation Sorted Lia Ascii NArith.
From Verif Require Export Base.
From Coq Require Export ZifyBool ZifyNat ZifyN Lia Permutation Sorted.
Set Implicit Arguments.

(** * Outcomes *)
Lemma bind_ok A B (m : res A) (f : A -> res B) b :
  bind m f = Ok b -> exists a, m = Ok a /\ f a = Ok b.
Proof. destruct m as [a| | |]; cbn; intros H; try discriminate. exists a; auto. Qed.

Ltac inv_bind H :=
  match type of H with
  | bind ?m ?f = Ok ?b =>
      let a := fresh "a" in let Ha := fresh "Ha" in let Hb := fresh "Hb" in
      destruct (bind_ok m f H) as (a & Ha & Hb); clear H
  end.

Lemma mapM_length A B (f : A -> res B) l l' : mapM f l = Ok l' -> List.length l' = List.length l.
Proof.
  revert l'; induction l as [|x t IH]; cbn; intros l' H.
  - injection H as <-; reflexivity.
  - inv_bind H. inv_bind Hb. injection Hb0 as <-. cbn. f_equal. apply IH; assumption.
Qed.

Lemma mapM_forall2 A B (f : A -> res B) l l' :
  mapM f l = Ok l' -> Forall2 (fun x y => f x = Ok y) l l'.
Proof.
  revert l'; induction l as [|x t IH]; cbn; intros l' H.
  - injection H as <-; constructor.
  - inv_bind H. inv_bind Hb. injection Hb0 as <-. constructor; auto.
Qed.

(** * Strings *)
Lemma ascii_compare_eq a b : Ascii.compare a b = Eq -> a = b.
Proof. apply Ascii.compare_eq_iff. Qed.

Lemma ascii_compare_lt_trans a b c :
  Ascii.compare a b = Lt -> Ascii.compare b c = Lt -> Ascii.compare a c = Lt.
Proof. unfold Ascii.compare. rewrite !N.compare_lt_iff. lia. Qed.

Lemma ascii_compare_refl a : Ascii.compare a a = Eq.
Proof. unfold Ascii.compare. apply N.compare_refl. Qed.
Lemma str_compare_refl s : String.compare s s = Eq.
Proof. induction s as [|a s IH]; cbn; [reflexivity|]. rewrite ascii_compare_refl; exact IH. Qed.

Lemma str_compare_lt_trans a b c :
  String.compare a b = Lt -> String.compare b c = Lt -> String.compare a c = Lt.
Proof.
  revert b c; induction a as [|x a IH]; intros [|y b] [|z c]; cbn; try easy.
  intros H1 H2.
  destruct (Ascii.compare x y) eqn:E1; try discriminate;
  destruct (Ascii.compare y z) eqn:E2; try discriminate.
  - apply ascii_compare_eq in E1; apply ascii_compare_eq in E2; subst.
    rewrite ascii_compare_refl. eapply IH; eassumption.
  - apply ascii_compare_eq in E1; subst. rewrite E2. reflexivity.
  - apply ascii_compare_eq in E2; subst. rewrite E1. reflexivity.
  - rewrite (ascii_compare_lt_trans _ _ _ E1 E2). reflexivity.
Qed.

Lemma str_ltb_lt a b : String.ltb a b = true <-> String.compare a b = Lt.
Proof. unfold String.ltb. destruct (String.compare a b); split; easy. Qed.
Lemma str_ltb_irrefl a : String.ltb a a = false.
Proof. unfold String.ltb. rewrite str_compare_refl. reflexivity. Qed.
Lemma str_ltb_trans a b c : String.ltb a b = true -> String.ltb b c = true -> String.ltb a c = true.
Proof. rewrite !str_ltb_lt. apply str_compare_lt_trans. Qed.
Lemma str_ltb_antisym a b : String.ltb a b = true -> String.ltb b a = false.
Proof.
  unfold String.ltb. rewrite (String.compare_antisym a b).
  destruct (String.compare b a); cbn; easy.
Qed.
Lemma str_ltb_total a b : String.ltb a b = false -> String.ltb b a = false -> a = b.
Proof.
  unfold String.ltb. rewrite (String.compare_antisym a b).
  destruct (String.compare b a) eqn:E; cbn; try easy.
  intros _ _. symmetry. apply String.compare_eq_iff; exact E.
Qed.
Lemma str_ltb_neg_trans a b c :
  String.ltb a b = false -> String.ltb b c = false -> String.ltb a c = false.
Proof.
  intros H1 H2. destruct (String.ltb a c) eqn:E; [|reflexivity].
  destruct (String.ltb c b) eqn:E2.
  - rewrite (str_ltb_trans _ _ _ E E2) in H1; discriminate.
  - rewrite (str_ltb_total _ _ H2 E2) in H1. congruence.
Qed.

Lemma str_eqb_spec a b : Bool.reflect (a = b) (String.eqb a b).
Proof. apply String.eqb_spec. Qed.

(** * Association lists *)
Lemma alookup_in V k (l : list (string * V)) v : alookup k l = Some v -> In (k, v) l.
Proof.
  induction l as [|[k' v'] t IH]; cbn; [discriminate|].
  destruct (String.eqb_spec k k') as [->|N]; intros H.
  - injection H as ->; left; reflexivity.
  - right; auto.
Qed.
Lemma alookup_none V k (l : list (string * V)) : alookup k l = None <-> ~ In k (map fst l).
Proof.
  induction l as [|[k' v'] t IH]; cbn; [tauto|].
  destruct (String.eqb_spec k k') as [->|N]; split; intros H; try discriminate.
  - exfalso; apply H; left; reflexivity.
  - intros [E|E]; [congruence|]. apply IH in H; auto.
  - apply IH. tauto.
Qed.
Lemma alookup_app V k (l1 l2 : list (string * V)) :
  alookup k (l1 ++ l2) = match alookup k l1 with Some v => Some v | None => alookup k l2 end.
Proof.
  induction l1 as [|[k' v'] t IH]; cbn; [reflexivity|].
  destruct (String.eqb k k'); auto.
Qed.
Lemma amem_true V k (l : list (string * V)) : amem k l = true <-> In k (map fst l).
Proof.
  unfold amem. destruct (alookup k l) eqn:E.
  - split; [intros _|reflexivity]. apply alookup_in in E. apply in_map_iff. exists (k, v); auto.
  - apply alookup_none in E. split; [discriminate|tauto].
Qed.
Lemma alookup_mset_same V k v (l : list (string * V)) : alookup k (mset k v l) = Some v.
Proof.
  induction l as [|[k' v'] t IH]; cbn; [rewrite String.eqb_refl; reflexivity|].
  destruct (String.eqb_spec k k') as [->|N]; cbn; [rewrite String.eqb_refl; reflexivity|].
  destruct (String.ltb k k'); cbn; [rewrite String.eqb_refl; reflexivity|].
  apply String.eqb_neq in N; rewrite N; exact IH.
Qed.
Lemma alookup_mset_other V k k1 v (l : list (string * V)) :
  k <> k1 -> alookup k (mset k1 v l) = alookup k l.
Proof.
  intros N. induction l as [|[k' v'] t IH]; cbn.
  - apply String.eqb_neq in N; rewrite N; reflexivity.
  - destruct (String.eqb_spec k1 k') as [->|N1]; cbn.
    + apply String.eqb_neq in N; rewrite N; reflexivity.
    + destruct (String.ltb k1 k'); cbn.
      * apply String.eqb_neq in N; rewrite N; reflexivity.
      * destruct (String.eqb k k'); auto.
Qed.
Lemma mget_mset_same V (d : V) k v l : mget d k (mset k v l) = v.
Proof. unfold mget. rewrite alookup_mset_same; reflexivity. Qed.
Lemma mget_mset_other V (d : V) k k1 v l : k <> k1 -> mget d k (mset k1 v l) = mget d k l.
Proof. intros H. unfold mget. rewrite alookup_mset_other by exact H; reflexivity. Qed.

Lemma keys_mset V k v (l : list (string * V)) x : In x (map fst (mset k v l)) <-> x = k \/ In x (map fst l).
Proof.
  induction l as [|[k' v'] t IH]; cbn; [firstorder congruence|].
  destruct (String.eqb_spec k k') as [->|N]; cbn; [firstorder congruence|].
  destruct (String.ltb k k'); cbn; [firstorder congruence|].
  rewrite IH. firstorder congruence.
Qed.

(** keys of a sorted association list *)
Definition keys_sorted {V} (l : list (string * V)) : Prop :=
  StronglySorted (fun a b => String.ltb a b = true) (map fst l).
Lemma mset_sorted V k v (l : list (string * V)) : keys_sorted l -> keys_sorted (mset k v l).
Proof.
  unfold keys_sorted. induction l as [|[k' v'] t IH]; cbn; intros H.
  - constructor; constructor.
  - inversion H as [|? ? Ht Hf]; subst.
    destruct (String.eqb_spec k k') as [->|N]; cbn; [constructor; assumption|].
    destruct (String.ltb k k') eqn:E; cbn.
    + constructor; [assumption|]. constructor; [assumption|].
      rewrite Forall_forall in *. intros z Hz. eapply str_ltb_trans; [exact E|auto].
    + constructor; [auto|]. rewrite Forall_forall in *. intros z Hz.
      apply keys_mset in Hz. destruct Hz as [->|Hz]; [|auto].
      destruct (String.ltb k' k) eqn:E2; [reflexivity|].
      exfalso; apply N. apply str_ltb_total; assumption.
Qed.
Lemma keys_sorted_nodup V (l : list (string * V)) : keys_sorted l -> NoDup (map fst l).
Proof.
  unfold keys_sorted. induction (map fst l) as [|x t IH]; intros H; constructor.
  - inversion H as [|? ? Ht Hf]; subst. intros Hx. rewrite Forall_forall in Hf.
    specialize (Hf x Hx). rewrite str_ltb_irrefl in Hf; discriminate.
  - inversion H; auto.
Qed.
Lemma in_alookup_nodup V k v (l : list (string * V)) :
  NoDup (map fst l) -> In (k, v) l -> alookup k l = Some v.
Proof.
  induction l as [|[k' v'] t IH]; cbn; intros Hn Hi; [tauto|].
  inversion Hn as [|? ? Hx Hn']; subst.
  destruct Hi as [E|Hi].
  - injection E as -> ->. rewrite String.eqb_refl; reflexivity.
  - destruct (String.eqb_spec k k') as [->|N]; [|auto].
    exfalso; apply Hx. apply in_map_iff. exists (k', v); auto.
Qed.

(** * Sorting *)
Lemma swo_b_spec A (lt : A -> A -> bool) l : swo_b lt l = true <-> strict_weak_on lt l.
Proof.
  unfold swo_b, strict_weak_on. rewrite andb_true_iff, !forallb_forall. split.
  - intros [H1 H2]. split; [|split].
    + intros a Ha. specialize (H1 a Ha). destruct (lt a a); [discriminate|reflexivity].
    + intros a b c Ha Hb Hc Hab Hbc. specialize (H2 a Ha). rewrite forallb_forall in H2.
      specialize (H2 b Hb). rewrite forallb_forall in H2. specialize (H2 c Hc).
      rewrite Hab, Hbc in H2. cbn in H2. destruct (lt a c); [reflexivity|discriminate].
    + intros a b c Ha Hb Hc Hab Hbc. specialize (H2 a Ha). rewrite forallb_forall in H2.
      specialize (H2 b Hb). rewrite forallb_forall in H2. specialize (H2 c Hc).
      rewrite Hab, Hbc in H2. cbn in H2. destruct (lt a c); [discriminate|reflexivity].
  - intros (H1 & H2 & H3). split.
    + intros a Ha. rewrite H1; auto.
    + intros a Ha. apply forallb_forall. intros b Hb. apply forallb_forall. intros c Hc.
      specialize (H2 a b c Ha Hb Hc). specialize (H3 a b c Ha Hb Hc).
      destruct (lt a b), (lt b c), (lt a c); cbn in *; auto; symmetry; auto.
Qed.

Lemma sort_res_ok (SO : Sorter) A (lt : A -> A -> bool) l l' :
  sort_res lt l = Ok l' ->
  strict_weak_on lt l /\ Permutation l l' /\ StronglySorted (fun a b => lt b a = false) l'.
Proof.
  unfold sort_res. destruct (swo_b lt l) eqn:E; intros H; [|discriminate].
  injection H as <-. apply swo_b_spec in E.
  split; [exact E|]. split; [apply ssort_perm|apply ssort_sorted]; exact E.
Qed.

(** * back *)
Lemma back_app A (l : list A) x : back (l ++ [x]) = Some x.
Proof. unfold back. rewrite rev_app_distr. reflexivity. Qed.
Lemma back_some A (l : list A) x : back l = Some x -> exists l0, l = l0 ++ [x].
Proof.
  unfold back. destruct (rev l) as [|y t] eqn:E; intros H; [discriminate|].
  injection H as ->. exists (rev t). rewrite <- (rev_involutive l), E. reflexivity.
Qed.
Lemma back_none A (l : list A) : back l = None -> l = [].
Proof.
  unfold back. destruct (rev l) as [|y t] eqn:E; intros H; [|discriminate].
  rewrite <- (rev_involutive l), E. reflexivity.
Qed.

(** * max_element *)
Lemma max_elem_in A (lt : A -> A -> bool) b l : In (max_elem_from lt b l) (b :: l).
Proof.
  revert b; induction l as [|x t IH]; intros b; [left; reflexivity|].
  cbn [max_elem_from]. destruct (lt b x).
  - right. apply IH.
  - destruct (IH b) as [H|H]; [left; exact H|right; right; exact H].
Qed.
Lemma min_elem_in A (lt : A -> A -> bool) b l : In (min_elem_from lt b l) (b :: l).
Proof.
  revert b; induction l as [|x t IH]; intros b; [left; reflexivity|].
  cbn [min_elem_from]. destruct (lt x b).
  - right. apply IH.
  - destruct (IH b) as [H|H]; [left; exact H|right; right; exact H].
Qed.
(** first largest: nothing before the result is as large, nothing after larger;
    holds for a comparator that is a strict weak order on the range *)
Lemma max_elem_max A (lt : A -> A -> bool) b l :
  strict_weak_on lt (b :: l) -> forall x, In x (b :: l) -> lt (max_elem_from lt b l) x = false.
Proof.
  revert b; induction l as [|y t IH]; intros b (H1 & H2 & H3) x Hx.
  - cbn. destruct Hx as [->|[]]. apply H1; left; reflexivity.
  - cbn [max_elem_from]. set (c := if lt b y then y else b).
    assert (Hc : In c (b :: y :: t)) by (subst c; destruct (lt b y); cbn; auto).
    assert (Hs : strict_weak_on lt (c :: t)).
    { assert (Hi : incl (c :: t) (b :: y :: t)).
      { intros z [<-|Hz]; [exact Hc|cbn; auto]. }
      split; [|split].
      - intros a Ha; apply H1, Hi, Ha.
      - intros a b0 c0 Ha Hb Hc0; apply H2; apply Hi; assumption.
      - intros a b0 c0 Ha Hb Hc0; apply H3; apply Hi; assumption. }
    assert (Hm : In (max_elem_from lt c t) (b :: y :: t)).
    { destruct (max_elem_in lt c t) as [<-|Hm]; [exact Hc|cbn; auto]. }
    assert (Hcx : lt (max_elem_from lt c t) c = false) by (apply IH; [exact Hs|left; reflexivity]).
    destruct Hx as [<-|[<-|Hx]].
    + apply H3 with c; cbn; auto. subst c; destruct (lt b y) eqn:E; [|apply H1; cbn; auto].
      destruct (lt y b) eqn:E2; [|reflexivity].
      rewrite <- (H1 b) by (cbn; auto). symmetry. apply H2 with y; cbn; auto.
    + apply H3 with c; cbn; auto. subst c; destruct (lt b y) eqn:E; [apply H1; cbn; auto|exact E].
    + apply IH; [exact Hs|right; exact Hx].
Qed.

Lemma Forall2_imp A B (R S : A -> B -> Prop) l l' : (forall a b, R a b -> S a b) -> Forall2 R l l' -> Forall2 S l l'.
Proof. intros H. induction 1; constructor; auto. Qed.
