(** Repeated places in the triangulation (C58). *)
From Coq Require Import Reals Lra Lia List String Permutation Bool.
From Verif Require Import Types NumReal LibR Lib Triangulation Spec_Tri Spec_Del Pf_Tri Pf_Del.
Import ListNotations.
Set Implicit Arguments.
Local Open Scope R_scope.
Local Open Scope list_scope.

Lemma incirc_a a b c : incirc a b c a = 0. Proof. unfold incirc, area2, dotp. ring. Qed.
Lemma incirc_b a b c : incirc a b c b = 0. Proof. unfold incirc, area2, dotp. ring. Qed.
Lemma incirc_c a b c : incirc a b c c = 0. Proof. unfold incirc, area2, dotp. ring. Qed.

Lemma insert_none {SO : Sorter} (T : list (triangle RX)) v : (forall t, In t T -> circum_contains t v = false) -> insert_vertex T v = Ok T.
Proof.
  intros H. unfold insert_vertex. cbv zeta.
  assert (E1 : filter (fun t => circum_contains t v) T = []).
  { induction T as [|t T IH]; [reflexivity|]. cbn [filter]. rewrite (H t) by (left; reflexivity). apply IH. intros x Hx. apply H. right; exact Hx. }
  assert (E2 : filter (fun t => negb (circum_contains t v)) T = T).
  { clear E1. induction T as [|t T IH]; [reflexivity|]. cbn [filter]. rewrite (H t) by (left; reflexivity). cbn [negb]. f_equal. apply IH. intros x Hx. apply H. right; exact Hx. }
  rewrite E1, E2. cbn [flat_map]. assert (W : strict_weak_on (te_ltb (F := RX)) []) by (repeat split; intros a; intros; contradiction).
  rewrite (sort_res_swo W). cbn [bind]. assert (E : ssort te_ltb ([] : list (tedge RX)) = []) by (apply Permutation_nil; apply ssort_perm, W).
  rewrite E. cbn [fan]. rewrite app_nil_r. reflexivity.
Qed.

Section Dup.
Context {SO : Sorter}.
Variable V : list (tvert RX).
Hypothesis HV : tidy V.
Hypothesis HG : general (map loc V).

Lemma insert_same S T u v : incl S V -> Inv S T -> In u S -> real_vert v -> loc v = loc u -> insert_vertex T v = Ok T.
Proof.
  intros HS HI Hu Hr E. apply insert_none. intros t Ht. destruct HI as (H & _). destruct (H t Ht) as (A & B & C & N & Hp).
  rewrite circum_real by (eauto using tv_real). apply andb_false_intro2. apply Rltb_false.
  unfold P. rewrite E.
  assert (Z : u = ta t \/ u = tb t \/ u = tc t \/ (u <> ta t /\ u <> tb t /\ u <> tc t)).
  { assert (Dec : forall x, In x S -> u = x \/ u <> x).
    { intros x Hx. destruct (tv_eqb u x) eqn:Q; [left; apply (@tv_eqb_key V _ _ HV (HS _ Hu) (HS _ Hx)), Q|right; intros K; apply (@tv_eqb_key V _ _ HV (HS _ Hu) (HS _ Hx)) in K; congruence]. }
    destruct (Dec _ A), (Dec _ B), (Dec _ C); auto 6. }
  destruct Z as [->|[->|[->|(Z1 & Z2 & Z3)]]].
  - rewrite incirc_a. lra.
  - rewrite incirc_b. lra.
  - rewrite incirc_c. lra.
  - specialize (Hp u Hu Z1 Z2 Z3). unfold P in Hp. lra.
Qed.

Variable sup : list (tvert RX).
Hypothesis Hsup : forall a b v, In a V -> In b V -> In v V -> 0 < ar a b v -> exists p, In p sup /\ 0 < ar a b p.
Lemma insert_firsts seen vs ws : first_places seen vs ws -> Forall real_vert vs -> forall S T, incl S V -> incl sup S -> Inv S T ->
  incl ws V -> NoDup ws -> (forall v, In v ws -> ~ In v S) -> (forall p, In p seen -> In p (map loc S)) ->
  insert_all (Ok T) vs = insert_all (Ok T) ws.
Proof.
  induction 1 as [seen|seen v vs ws Hn Hf IH|seen v vs ws Hi Hf IH]; intros Hr S T HS Hs HI Hw Nw Nd Hseen; [reflexivity|..]; inversion Hr as [|? ? Rv Rs]; subst.
  - inversion Nw as [|? ? N1 N2]; subst. assert (Hv : In v V) by (apply Hw; left; reflexivity).
    destruct (@insert_step V HV HG SO S T v HS HI Hv) as (T1 & E & HI1).
    { apply Nd. left; reflexivity. }
    { intros a b Ha Hb K. destruct (Hsup (HS _ Ha) (HS _ Hb) Hv K) as (p & Hp & Q). exists p. split; [apply Hs, Hp|exact Q]. }
    unfold insert_all. cbn [fold_left bind]. rewrite E. apply (IH Rs (v :: S) T1).
    + intros x [<-|X]; auto.
    + intros x X. right. apply Hs, X.
    + exact HI1.
    + intros x X. apply Hw. right; exact X.
    + exact N2.
    + intros x X [<-|Y]; [contradiction|]. apply (Nd x); [right; exact X|exact Y].
    + intros p [<-|Hp]; cbn [map]; [left; reflexivity|right; auto].
  - apply Hseen in Hi. apply in_map_iff in Hi. destruct Hi as (u & Eu & Hu).
    unfold insert_all. cbn [fold_left bind]. rewrite (insert_same HS HI Hu Rv (eq_sym Eu)). apply (IH Rs S T); assumption.
Qed.
End Dup.

Lemma first_incl seen vs ws : first_places seen vs ws -> incl ws vs /\ (forall v, In v vs -> In (loc v) seen \/ In (loc v) (map loc ws)) /\ (List.length ws <= List.length vs)%nat.
Proof.
  induction 1 as [seen|seen v vs ws Hn Hf (I1 & I2 & I3)|seen v vs ws Hi Hf (I1 & I2 & I3)].
  - split; [intros x []|]. split; [intros v []|reflexivity].
  - split; [intros x [<-|X]; [left; reflexivity|right; auto]|]. split; [|cbn; lia]. intros x [<-|X]; [right; left; reflexivity|].
    destruct (I2 _ X) as [[<-|K]|K]; [right; left; reflexivity|auto|right; right; exact K].
  - split; [intros x X; right; auto|]. split; [|cbn; lia]. intros x [<-|X]; auto.
Qed.
Lemma first_places_loc vs ws : first_places [] vs ws -> forall p, In p (map loc vs) <-> In p (map loc ws).
Proof.
  intros H. destruct (first_incl H) as (I1 & I2 & _). intros p. split; intros K; apply in_map_iff in K; destruct K as (v & <- & K).
  - destruct (I2 v K) as [[]|X]. exact X.
  - apply in_map, I1, K.
Qed.

Theorem triangulate_firsts {SO : Sorter} (vs ws : list (tvert RX)) (maxedge : RX) (lx hx ly hy : R) : first_places [] vs ws -> Forall real_vert vs ->
  proper ws -> (3 <= List.length ws)%nat -> moderate (map loc ws) -> bounding lx hx ly hy (map loc ws) -> general (frame lx hx ly hy ++ map loc ws) ->
  triangulate_vertices vs maxedge = triangulate_vertices ws maxedge.
Proof.
  intros Hf Rv Hp Hlen Hm Hb Hg. assert (Hne : ws <> []) by (intros ->; cbn in Hlen; lia).
  assert (Hr : Forall real_vert ws) by apply Hp. assert (L := first_places_loc Hf).
  destruct (first_incl Hf) as (_ & _ & Hle).
  assert (Es' : super_vertices vs = super_vertices ws).
  { destruct (super_frame Hr Hm Hb) as (p0 & p1 & p2 & Ef & Es).
    destruct (@super_frame vs lx hx ly hy Rv) as (q0 & q1 & q2 & Ef' & Es').
    - intros p K. apply Hm, L, K.
    - destruct Hb as (B0 & (b1 & I1 & E1) & (b2 & I2 & E2) & (b3 & I3 & E3) & (b4 & I4 & E4)).
      split; [intros p K; apply B0, L, K|]. split; [exists b1; split; [apply L, I1|exact E1]|]. split; [exists b2; split; [apply L, I2|exact E2]|].
      split; [exists b3; split; [apply L, I3|exact E3]|exists b4; split; [apply L, I4|exact E4]].
    - assert (Q : [p0; p1; p2] = [q0; q1; q2]) by congruence. injection Q as -> -> ->. congruence. }
  destruct (super_frame Hr Hm Hb) as (p0 & p1 & p2 & Ef & Es).
  set (v0 := mkTV (Some (fst p0) : RX) (Some (snd p0) : RX) "super1"%string) in *. set (v1 := mkTV (Some (fst p1) : RX) (Some (snd p1) : RX) "super2"%string) in *.
  set (v2 := mkTV (Some (fst p2) : RX) (Some (snd p2) : RX) "super3"%string) in *.
  set (V := v0 :: v1 :: v2 :: ws).
  assert (HV : tidy V) by (apply proper_tidy; auto).
  assert (EV : map loc V = frame lx hx ly hy ++ map loc ws).
  { rewrite Ef. unfold V, v0, v1, v2. cbn [map app]. rewrite !mk_loc. reflexivity. }
  rewrite <- EV in Hg.
  assert (N012 : distinct3 v0 v1 v2) by (repeat split; discriminate).
  assert (Res : forall v, In v ws -> ~ In (tv_id v) reserved) by apply Hp.
  assert (Nsup : forall v, In v ws -> ~ In v [v0; v1; v2]).
  { intros v Hv [<-|[<-|[<-|[]]]]; apply (Res _ Hv); cbn; auto. }
  assert (Hsup : forall a b v, In a V -> In b V -> In v V -> 0 < ar a b v -> exists p, In p [v0; v1; v2] /\ 0 < ar a b p).
  { intros a b v Ha Hb' Hv H. destruct Hv as [Hv|[Hv|[Hv|Hv]]]; [exists v; subst v; cbn; auto|exists v; subst v; cbn; auto|exists v; subst v; cbn; auto|].
    destruct Hb as (Hbox & _). destruct (Hbox (loc v)) as [[X1 X2] [Y1 Y2]]; [apply in_map, Hv|].
    assert (Lp : 0 < hx - lx + 20 + 2 * (hy - ly + 20)) by lra.
    unfold frame in Ef. injection Ef as <- <- <-. cbn [fst snd] in v0, v1, v2.
    apply (@hull_sup v0 v1 v2 v ((hx + 10 + (hy - ly + 20) - fst (loc v) - (snd (loc v) - (ly - 10))) / (hx - lx + 20 + 2 * (hy - ly + 20)))
       ((fst (loc v) - (lx - 10 - (hy - ly + 20)) - (snd (loc v) - (ly - 10))) / (hx - lx + 20 + 2 * (hy - ly + 20)))
       (2 * (snd (loc v) - (ly - 10)) / (hx - lx + 20 + 2 * (hy - ly + 20)))); auto;
      try (apply Rmult_le_pos; [lra|apply Rlt_le, Rinv_0_lt_compat, Lp]); unfold loc at 3 4 5 || idtac; cbn [loc v0 v1 v2 fst snd tv_x tv_y rval]; field; lra. }
  unfold triangulate_vertices. destruct (Nat.ltb_spec (List.length vs) 3) as [L1|_]; [lia|]. destruct (Nat.ltb_spec (List.length ws) 3) as [L2|_]; [lia|].
  rewrite Es', Es. fold v0 v1 v2.
  fold (insert_all (Ok [mkT v0 v1 v2]) (v0 :: v1 :: v2 :: vs)). fold (insert_all (Ok [mkT v0 v1 v2]) (v0 :: v1 :: v2 :: ws)).
  assert (Start : forall xs, insert_all (Ok [mkT v0 v1 v2]) (v0 :: v1 :: v2 :: xs) = insert_all (Ok [mkT v0 v1 v2]) xs).
  { intros xs. unfold insert_all. cbn [fold_left bind]. rewrite (@own_corner SO v0 v1 v2 v0) by (cbn; auto). cbn [bind]. rewrite (@own_corner SO v0 v1 v2 v1) by (cbn; auto). cbn [bind].
    rewrite (@own_corner SO v0 v1 v2 v2) by (cbn; auto). reflexivity. }
  rewrite !Start. rewrite (@insert_firsts SO V HV Hg [v0; v1; v2] Hsup [] vs ws Hf Rv [v0; v1; v2] [mkT v0 v1 v2]).
  - rewrite (sort_res_swo (vs_swo Rv)), (sort_res_swo (vs_swo Hr)). reflexivity.
  - intros x [<-|[<-|[<-|[]]]]; cbn; auto.
  - apply incl_refl.
  - apply base_inv, N012.
  - intros x Hx. cbn. auto.
  - eapply NoDup_map_inv. apply Hp.
  - exact Nsup.
  - intros p [].
Qed.
