(** Order laws shared by the real and the binary64 instance: [<!] is a strict
    order (NaN compares false with everything). *)
From Coq Require Import ZArith Bool Reals Lra Lia SpecFloat.
From Verif Require Import Num NumReal NumFloat.

Class NumOrd (F : Type) {NF : Num F} := {
  flt_irrefl : forall a : F, (a <! a) = false;
  flt_trans : forall a b c : F, (a <! b) = true -> (b <! c) = true -> (a <! c) = true;
  fle_not_lt : forall a b : F, (a <=! b) = true -> (b <! a) = false;
  flt_le : forall a b : F, (a <! b) = true -> (a <=! b) = true;
  fle_trans : forall a b c : F, (a <=! b) = true -> (b <=! c) = true -> (a <=! c) = true;
  flt_le_trans : forall a b c : F, (a <! b) = true -> (b <=! c) = true -> (a <! c) = true;
  fle_lt_trans : forall a b c : F, (a <=! b) = true -> (b <! c) = true -> (a <! c) = true;
  (* comparable elements are totally ordered *)
  flt_total : forall a b : F, (a <=! a) = true -> (b <=! b) = true -> (a <! b) = false -> (b <=! a) = true;
  fle_refl_l : forall a b : F, (a <=! b) = true -> (a <=! a) = true;
  fle_refl_r : forall a b : F, (a <=! b) = true -> (b <=! b) = true;
  f0_mul_f0 : (f0 <! (f0 *! f0 : F)) = false;
  f0_eqb : ((f0 : F) =! f0) = true;
}.

Global Instance ord_real : NumOrd RX.
Proof.
  constructor; intros; repeat match goal with x : RX |- _ => destruct x as [x|] end; cbn in *;
    try discriminate; try reflexivity;
    repeat match goal with
    | H : Rltb _ _ = true |- _ => apply Rltb_true in H
    | H : Rleb _ _ = true |- _ => apply Rleb_true in H
    | H : Rltb _ _ = false |- _ => apply Rltb_false in H
    end;
    first [apply Rltb_true | apply Rltb_false | apply Rleb_true | apply Reqb_true | idtac]; lra.
Qed.

(** A number line into which non-NaN floats embed, ordered like SFcompare *)
Definition sf_key (x : SF) : option (Z * Z * Z) :=
  match x with
  | S754_zero _ => Some (0, 0, 0)
  | S754_infinity s => Some (if s then -2 else 2, 0, 0)
  | S754_finite s m e => Some (if s then (-1, -e, Zneg m) else (1, e, Zpos m))
  | S754_nan => None
  end%Z.
Definition lex (a b : Z * Z * Z) : comparison :=
  match (fst (fst a) ?= fst (fst b))%Z with
  | Eq => match (snd (fst a) ?= snd (fst b))%Z with
          | Eq => (snd a ?= snd b)%Z
          | c => c
          end
  | c => c
  end.
Lemma sf_compare_key x y :
  SFcompare x y = match sf_key x, sf_key y with Some a, Some b => Some (lex a b) | _, _ => None end.
Proof.
  destruct x as [s|s| |s m e], y as [s'|s'| |s' m' e']; try destruct s; try destruct s'; cbn; try reflexivity.
  - unfold lex; cbn. rewrite Z.compare_opp, (Z.compare_antisym e' e).
    rewrite ?Z.opp_involutive. destruct (e' ?= e)%Z; reflexivity.
Qed.

Lemma lex_lt a b : lex a b = Lt <->
  (fst (fst a) < fst (fst b) \/ (fst (fst a) = fst (fst b) /\
   (snd (fst a) < snd (fst b) \/ (snd (fst a) = snd (fst b) /\ snd a < snd b))))%Z.
Proof.
  unfold lex. destruct (Z.compare_spec (fst (fst a)) (fst (fst b))); [|intuition lia|split; [discriminate|lia]].
  destruct (Z.compare_spec (snd (fst a)) (snd (fst b))); [|intuition lia|split; [discriminate|lia]].
  rewrite Z.compare_lt_iff. lia.
Qed.
Lemma lex_eq a b : lex a b = Eq <-> a = b.
Proof.
  destruct a as [[x y] z], b as [[x' y'] z']. unfold lex; cbn.
  destruct (Z.compare_spec x x'); [|split; [discriminate|intros E; injection E; lia]..].
  destruct (Z.compare_spec y y'); [|split; [discriminate|intros E; injection E; lia]..].
  rewrite Z.compare_eq_iff. split; [congruence|]. intros E; injection E; auto.
Qed.
Lemma lex_opp a b : lex b a = CompOpp (lex a b).
Proof.
  unfold lex. rewrite (Z.compare_antisym (fst (fst a))).
  destruct (fst (fst a) ?= fst (fst b))%Z; cbn; try reflexivity.
  rewrite (Z.compare_antisym (snd (fst a))).
  destruct (snd (fst a) ?= snd (fst b))%Z; cbn; try reflexivity.
  apply Z.compare_antisym.
Qed.

Lemma sf_ltb_key x y : SFltb x y = true <-> exists a b, sf_key x = Some a /\ sf_key y = Some b /\ lex a b = Lt.
Proof.
  unfold SFltb. rewrite sf_compare_key. destruct (sf_key x) as [a|], (sf_key y) as [b|];
    try (split; [discriminate|intros (? & ? & ? & ? & ?); discriminate]).
  destruct (lex a b) eqn:E; split; intros H; try discriminate; eauto.
  - destruct H as (? & ? & ? & ? & ?); congruence.
  - destruct H as (? & ? & ? & ? & ?); congruence.
Qed.
Lemma sf_leb_key x y : SFleb x y = true <-> exists a b, sf_key x = Some a /\ sf_key y = Some b /\ lex a b <> Gt.
Proof.
  unfold SFleb. rewrite sf_compare_key. destruct (sf_key x) as [a|], (sf_key y) as [b|];
    try (split; [discriminate|intros (? & ? & ? & ? & ?); discriminate]).
  destruct (lex a b) eqn:E; split; intros H; try discriminate; try reflexivity.
  - exists a, b; repeat split; congruence.
  - exists a, b; repeat split; congruence.
  - destruct H as (? & ? & ? & ? & ?); congruence.
Qed.
Lemma lex_le a b : lex a b <> Gt <-> lex a b = Lt \/ a = b.
Proof. rewrite <- lex_eq. destruct (lex a b); intuition congruence. Qed.
Lemma lex_lt_trans a b c : lex a b = Lt -> lex b c = Lt -> lex a c = Lt.
Proof. rewrite !lex_lt. lia. Qed.

Lemma ord_float (t : transc) : @NumOrd SF (num_float t).
Proof.
  constructor; cbn; intros.
  - destruct (SFltb a a) eqn:E; [|reflexivity]. apply sf_ltb_key in E.
    destruct E as (x & y & Hx & Hy & E). rewrite Hx in Hy; injection Hy as <-.
    rewrite (proj2 (lex_eq x x) eq_refl) in E; discriminate.
  - apply sf_ltb_key in H, H0. destruct H as (x & y & Hx & Hy & E), H0 as (y' & z & Hy' & Hz & E').
    rewrite Hy in Hy'; injection Hy' as <-. apply sf_ltb_key. exists x, z; repeat split; auto.
    eapply lex_lt_trans; eauto.
  - apply sf_leb_key in H. destruct H as (x & y & Hx & Hy & E).
    destruct (SFltb b a) eqn:L; [|reflexivity]. apply sf_ltb_key in L.
    destruct L as (y' & x' & Hy' & Hx' & E'). rewrite Hx in Hx'; rewrite Hy in Hy'.
    injection Hx' as <-; injection Hy' as <-. rewrite lex_opp in E'. destruct (lex x y); cbn in *; congruence.
  - apply sf_ltb_key in H. destruct H as (x & y & Hx & Hy & E). apply sf_leb_key.
    exists x, y; repeat split; auto. congruence.
  - apply sf_leb_key in H, H0. destruct H as (x & y & Hx & Hy & E), H0 as (y' & z & Hy' & Hz & E').
    rewrite Hy in Hy'; injection Hy' as <-. apply sf_leb_key. exists x, z; repeat split; auto.
    apply lex_le in E, E'. apply lex_le. destruct E as [E|<-]; [|auto].
    destruct E' as [E'|<-]; [|auto]. left; eapply lex_lt_trans; eauto.
  - apply sf_ltb_key in H. apply sf_leb_key in H0. destruct H as (x & y & Hx & Hy & E), H0 as (y' & z & Hy' & Hz & E').
    rewrite Hy in Hy'; injection Hy' as <-. apply sf_ltb_key. exists x, z; repeat split; auto.
    apply lex_le in E'. destruct E' as [E'|<-]; [|auto]. eapply lex_lt_trans; eauto.
  - apply sf_leb_key in H. apply sf_ltb_key in H0. destruct H as (x & y & Hx & Hy & E), H0 as (y' & z & Hy' & Hz & E').
    rewrite Hy in Hy'; injection Hy' as <-. apply sf_ltb_key. exists x, z; repeat split; auto.
    apply lex_le in E. destruct E as [E|<-]; [|auto]. eapply lex_lt_trans; eauto.
  - apply sf_leb_key in H, H0. destruct H as (x & x' & Hx & _ & _), H0 as (y & y' & Hy & _ & _).
    apply sf_leb_key. exists y, x; repeat split; auto. intros E.
    assert (SFltb a b = true); [|congruence]. apply sf_ltb_key. exists x, y; repeat split; auto.
    rewrite lex_opp, E. reflexivity.
  - apply sf_leb_key in H. destruct H as (x & y & Hx & Hy & E). apply sf_leb_key.
    exists x, x; repeat split; auto. rewrite (proj2 (lex_eq x x) eq_refl); discriminate.
  - apply sf_leb_key in H. destruct H as (x & y & Hx & Hy & E). apply sf_leb_key.
    exists y, y; repeat split; auto. rewrite (proj2 (lex_eq y y) eq_refl); discriminate.
  - reflexivity.
  - reflexivity.
Qed.
