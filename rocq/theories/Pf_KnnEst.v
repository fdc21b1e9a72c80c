(** The KNN estimator on top of the weighting (C50, C51). *)
From Coq Require Import Reals Lra Lia List String.
From Verif Require Import Lib NumReal LibR Estimators Spec_Knn Pf_Knn.
Import ListNotations.
Set Implicit Arguments.
Local Open Scope R_scope.
Local Open Scope list_scope.

Lemma whitelisted_real ids ms : Forall real_radio ms -> Forall real_radio (whitelisted ids ms).
Proof. intros H. apply Forall_forall. intros m Hm. apply filter_In in Hm. rewrite Forall_forall in H. apply H, Hm. Qed.

Definition tables_real (kt : ktables RX) : Prop := forall id rm, alookup id (kt_rmaps kt) = Some rm -> real_map rm.

Section K.
Context {SO : Sorter}.
Theorem knn_estimate (s : settings RX) (kt : ktables RX) (mpos mp p : position RX) (l : level RX) (rps : list (refpoint RX)) ts ms st :
  s_triangles s = true -> Forall real_radio ms -> tables_real kt -> l_rm l = mk_radiomap rps ->
  (forall r, In r rps -> exists x y, rp_pt r = mkXY (Some x : RX) (Some y : RX)) ->
  knn_position s kt mpos l ts ms = Ok (mp, (st, p)) ->
  (st <> OK /\ mp = mpos /\ p = mpos) \/
  (st = OK /\ mp = p /\ exists ids rm tris t x y,
     alookup (l_id l) (kt_refs kt) = Some ids /\ alookup (l_id l) (kt_rmaps kt) = Some rm /\ alookup (l_id l) (kt_tris kt) = Some tris /\
     (s_minmsr s <= List.length (whitelisted ids ms))%nat /\
     let w := rp_weights rm (whitelisted ids ms) (s_diff s) in
     real_weights w /\ heaviest w tris t /\
     p = mkPos (Some x : RX) (Some y : RX) (l_id l) (Some 1 : RX) ts false INDOOR (Some 0 : RX) /\
     ((x = 0 /\ y = 0 /\ (tri_total w t < / IZR (2 ^ 52) \/ point_named rps (tr1 t) = None \/ point_named rps (tr2 t) = None \/ point_named rps (tr3 t) = None)) \/
      (exists a b c x1 y1 x2 y2 x3 y3,
         point_named rps (tr1 t) = Some (mkXY (Some x1 : RX) (Some y1 : RX)) /\
         point_named rps (tr2 t) = Some (mkXY (Some x2 : RX) (Some y2 : RX)) /\
         point_named rps (tr3 t) = Some (mkXY (Some x3 : RX) (Some y3 : RX)) /\
         0 <= a /\ 0 <= b /\ 0 <= c /\ a + b + c = 1 /\
         a * tri_total w t = wt w (tr1 t) /\ b * tri_total w t = wt w (tr2 t) /\ c * tri_total w t = wt w (tr3 t) /\
         x = a * x1 + b * x2 + c * x3 /\ y = a * y1 + b * y2 + c * y3))).
Proof.
  intros Ht Hm Hk Hl Hp. unfold knn_position. destruct ms as [|m0 mt].
  { intros H. injection H as <- <- <-. left. split; [discriminate|auto]. }
  set (ms := m0 :: mt) in *. destruct (alookup (l_id l) (kt_refs kt)) as [ids|] eqn:E1; cbn [at_or_throw bind]; [|discriminate].
  destruct (Nat.ltb_spec (List.length (whitelisted ids ms)) (s_minmsr s)) as [L|L].
  { intros H. injection H as <- <- <-. left. split; [discriminate|auto]. }
  destruct (alookup (l_id l) (kt_rmaps kt)) as [rm|] eqn:E2; cbn [at_or_throw bind]; [|discriminate].
  rewrite Ht. destruct (alookup (l_id l) (kt_tris kt)) as [[|t0 tr]|] eqn:E3.
  1, 3: intros H; injection H as <- <- <-; left; split; [discriminate|auto].
  assert (Hw : real_weights (rp_weights rm (whitelisted ids ms) (s_diff s))).
  { apply rp_weights_good; [apply whitelisted_real, Hm|apply (Hk _ _ E2)]. }
  assert (Hn : forall id q, point_named rps id = Some q -> exists x y, q = mkXY (Some x : RX) (Some y : RX)).
  { intros id q. unfold point_named. destruct (find _ rps) as [r|] eqn:E; [|discriminate]. intros H; injection H as <-.
    apply find_some in E. apply Hp, E. }
  destruct (@triangle_position (t0 :: tr) rps _ ltac:(discriminate) Hw) as (t & Hh & Hz & Hc).
  rewrite Hl. intros H. right.
  assert (Goal1 : forall x y, position_in_triangle (t0 :: tr) (mk_radiomap rps) (rp_weights rm (whitelisted ids ms) (s_diff s)) = Ok (mkXY (Some x : RX) (Some y : RX)) ->
    st = OK /\ mp = p /\ p = mkPos (Some x : RX) (Some y : RX) (l_id l) (Some 1 : RX) ts false INDOOR (Some 0 : RX)).
  { intros x y E. rewrite E in H. cbn [bind px py] in H. injection H as <- <- <-. auto. }
  assert (Hzz : (tri_total (rp_weights rm (whitelisted ids ms) (s_diff s)) t < / IZR (2 ^ 52) \/ point_named rps (tr1 t) = None \/ point_named rps (tr2 t) = None \/ point_named rps (tr3 t) = None)
    \/ (/ IZR (2 ^ 52) <= tri_total (rp_weights rm (whitelisted ids ms) (s_diff s)) t /\ (exists q, point_named rps (tr1 t) = Some q) /\ (exists q, point_named rps (tr2 t) = Some q) /\ (exists q, point_named rps (tr3 t) = Some q))).
  { destruct (Rlt_dec (tri_total (rp_weights rm (whitelisted ids ms) (s_diff s)) t) (/ IZR (2 ^ 52))) as [X|X]; [auto|]. apply Rnot_lt_le in X.
    destruct (point_named rps (tr1 t)) as [q1|]; [|auto]. destruct (point_named rps (tr2 t)) as [q2|]; [|auto].
    destruct (point_named rps (tr3 t)) as [q3|]; [|auto]. right. split; [exact X|]. eauto 10. }
  destruct Hzz as [Hzz|(X & (q1 & P1) & (q2 & P2) & (q3 & P3))].
  - destruct (Goal1 _ _ (Hz Hzz)) as (G1 & G2 & G3). split; [exact G1|]. split; [exact G2|].
    exists ids, rm, (t0 :: tr), t, 0, 0. cbv zeta. auto 12.
  - destruct (Hn _ _ P1) as (x1 & y1 & ->). destruct (Hn _ _ P2) as (x2 & y2 & ->). destruct (Hn _ _ P3) as (x3 & y3 & ->).
    destruct (Hc X _ _ _ _ _ _ P1 P2 P3) as (a & b & c & A1 & A2 & A3 & A4 & A5 & A6 & A7 & E).
    destruct (Goal1 _ _ E) as (G1 & G2 & G3). split; [exact G1|]. split; [exact G2|].
    exists ids, rm, (t0 :: tr), t, (a * x1 + b * x2 + c * x3), (a * y1 + b * y2 + c * y3). cbv zeta.
    split; [reflexivity|]. split; [reflexivity|]. split; [reflexivity|]. split; [exact L|]. split; [exact Hw|]. split; [exact Hh|]. split; [exact G3|].
    right. exists a, b, c, x1, y1, x2, y2, x3, y3. auto 20.
Qed.
End K.

Section G.
Context {F : Type} {NF : Num F} {SO : Sorter}.
Lemma knn_zero (s : settings F) kt mpos mp p l ts ms : ((f0 : F) <! feps) = true -> s_triangles s = false ->
  knn_position s kt mpos l ts ms = Ok (mp, (OK, p)) -> p = mkPos f0 f0 (l_id l) f1 ts false INDOOR f0.
Proof.
  intros Hf Ht. unfold knn_position. destruct ms as [|m0 mt]; [discriminate|].
  destruct (alookup (l_id l) (kt_refs kt)) as [ids|]; cbn [at_or_throw bind]; [|discriminate].
  destruct (Nat.ltb _ _); [discriminate|]. destruct (alookup (l_id l) (kt_rmaps kt)) as [rm|]; cbn [at_or_throw bind]; [|discriminate].
  rewrite Ht, k_average_zero by exact Hf. cbn [bind xy0 px py]. intros H. injection H as _ <-. reflexivity.
Qed.
End G.
