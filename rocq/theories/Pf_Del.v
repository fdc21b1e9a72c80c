(** The Bowyer-Watson insertion keeps exactly the Delaunay triangles (C58). *)
From Coq Require Import Reals Lra Lia List String Permutation Sorted Bool.
From Verif Require Import Lib NumReal LibR Triangulation Spec_Tri Spec_Del Pf_Tri.
Import ListNotations.
Set Implicit Arguments.
Local Open Scope list_scope.
Local Open Scope R_scope.

(** * Geometry *)
Definition dotp (a b p : pt) : R := (fst p - fst a) * (fst p - fst b) + (snd p - snd a) * (snd p - snd b).
(** positive inside the circle, negative outside *)
Definition incirc (a b c v : pt) : R := area2 a b c * (area2 a b v * dotp a b c - area2 a b c * dotp a b v).
Definition lam (a b p : pt) : R := dotp a b p / area2 a b p.

Lemma incirc_lam a b c v : area2 a b c <> 0 -> area2 a b v <> 0 ->
  incirc a b c v = area2 a b c * area2 a b c * (area2 a b v * (lam a b c - lam a b v)).
Proof. intros H1 H2. unfold incirc, lam. field. auto. Qed.
Lemma area2_swap a b c : area2 b a c = - area2 a b c. Proof. unfold area2. ring. Qed.
Lemma area2_rot a b c : area2 b c a = area2 a b c. Proof. unfold area2. ring. Qed.
Lemma incirc_swap a b c v : incirc b a c v = incirc a b c v. Proof. unfold incirc, area2, dotp. ring. Qed.
Lemma incirc_rot a b c v : incirc b c a v = incirc a b c v. Proof. unfold incirc, area2, dotp. ring. Qed.

(** the sign is that of the circle *)
Lemma incirc_centre a b c v o : centre_of o a b c -> incirc a b c v = area2 a b c * area2 a b c * (sqd o a - sqd o v).
Proof.
  intros [H1 H2]. unfold centre_of, sqd in *. destruct a as [ax ay], b as [bx by_], c as [cx cy], v as [vx vy], o as [ox oy]. cbn [fst snd] in *.
  unfold incirc, area2, dotp. cbn [fst snd].
  (* 2 (b - a) . o = |b|^2 - |a|^2 *)
  assert (E1 : (bx - ax) * (bx + ax - 2 * ox) + (by_ - ay) * (by_ + ay - 2 * oy) = 0) by nra.
  assert (E2 : (cx - ax) * (cx + ax - 2 * ox) + (cy - ay) * (cy + ay - 2 * oy) = 0) by nra.
  clear H1 H2.
  set (A := (bx - ax) * (cy - ay) - (by_ - ay) * (cx - ax)) in *.
  assert (K : ((bx - ax) * (vy - ay) - (by_ - ay) * (vx - ax)) * ((cx - ax) * (cx - bx) + (cy - ay) * (cy - by_)) -
     A * ((vx - ax) * (vx - bx) + (vy - ay) * (vy - by_)) =
     A * ((ox - ax) * (ox - ax) + (oy - ay) * (oy - ay) - ((ox - vx) * (ox - vx) + (oy - vy) * (oy - vy)))
     + ((bx - ax) * (vy - ay) - (by_ - ay) * (vx - ax)) * ((cx - ax) * (cx + ax - 2 * ox) + (cy - ay) * (cy + ay - 2 * oy))
     + ((vx - ax) * (cy - ay) - (vy - ay) * (cx - ax)) * ((bx - ax) * (bx + ax - 2 * ox) + (by_ - ay) * (by_ + ay - 2 * oy))).
  { unfold A. ring. }
  rewrite K, E1, E2. ring.
Qed.

Lemma centre_exists a b c : area2 a b c <> 0 -> exists o, centre_of o a b c.
Proof.
  destruct a as [ax ay], b as [bx by_], c as [cx cy]. unfold area2, centre_of, sqd. cbn [fst snd]. intros H.
  exists (ax + ((cy - ay) * ((bx - ax) * (bx - ax) + (by_ - ay) * (by_ - ay)) - (by_ - ay) * ((cx - ax) * (cx - ax) + (cy - ay) * (cy - ay)))
             / (2 * ((bx - ax) * (cy - ay) - (by_ - ay) * (cx - ax))),
          ay + ((bx - ax) * ((cx - ax) * (cx - ax) + (cy - ay) * (cy - ay)) - (cx - ax) * ((bx - ax) * (bx - ax) + (by_ - ay) * (by_ - ay)))
             / (2 * ((bx - ax) * (cy - ay) - (by_ - ay) * (cx - ax)))).
  cbn [fst snd]. split; field; exact H.
Qed.
Lemma sq_pos x : x <> 0 -> 0 < x * x. Proof. intros H. assert (K := Rsqr_pos_lt x H). exact K. Qed.
Lemma outside_neg a b c v : area2 a b c <> 0 -> (outside_circle a b c v <-> incirc a b c v < 0).
Proof.
  intros H. assert (P := sq_pos H). split.
  - intros (o & Ho & L). rewrite (incirc_centre _ Ho). 
    replace (area2 a b c * area2 a b c * (sqd o a - sqd o v)) with (- (area2 a b c * area2 a b c * (sqd o v - sqd o a))) by ring.
    apply Ropp_lt_gt_0_contravar. apply Rmult_lt_0_compat; lra.
  - intros L. destruct (centre_exists H) as (o & Ho). exists o. split; [exact Ho|]. rewrite (incirc_centre _ Ho) in L.
    destruct (Rlt_dec (sqd o a) (sqd o v)) as [|n]; [assumption|]. exfalso. apply Rnot_lt_le in n.
    assert (0 <= area2 a b c * area2 a b c * (sqd o a - sqd o v)) by (apply Rmult_le_pos; lra). lra.
Qed.

(** * The code's tests *)
Definition P (a b c v : tvert RX) : R := incirc (loc a) (loc b) (loc c) (loc v).
Lemma circum_real t v : real_vert (ta t) -> real_vert (tb t) -> real_vert (tc t) -> real_vert v ->
  circum_contains t v = negb (tv_eqb v (ta t) || tv_eqb v (tb t) || tv_eqb v (tc t)) && Rltb (1 / 100000000) (P (ta t) (tb t) (tc t) v).
Proof.
  intros [A1 A2] [B1 B2] [C1 C2] [V1 V2]. unfold circum_contains. destruct (tv_eqb v (ta t) || tv_eqb v (tb t) || tv_eqb v (tc t)); [reflexivity|].
  cbn [negb andb]. rewrite A1, A2, B1, B2, C1, C2, V1, V2. unfold geps, det3. rewrite rx_f1.
  repeat first [rewrite rx_sub | rewrite rx_mul | rewrite rx_add]. rewrite rx_lit by lra. rewrite rx_ltb.
  f_equal. unfold P, incirc, area2, dotp. ring.
Qed.

(** * Delaunay triangles of a set of vertices *)
Definition distinct3 (a b c : tvert RX) : Prop := a <> b /\ b <> c /\ a <> c.
Definition D (S : list (tvert RX)) (a b c : tvert RX) : Prop :=
  In a S /\ In b S /\ In c S /\ distinct3 a b c /\ forall p, In p S -> p <> a -> p <> b -> p <> c -> P a b c p < 0.
Lemma D_swap S a b c : D S a b c -> D S b a c.
Proof.
  intros (A & B & C & (N1 & N2 & N3) & H). repeat split; auto. intros p Hp Pa Pb Pc. unfold P. rewrite incirc_swap. apply H; auto.
Qed.
Lemma D_rot S a b c : D S a b c -> D S b c a.
Proof.
  intros (A & B & C & (N1 & N2 & N3) & H). repeat split; auto. intros p Hp Pa Pb Pc. unfold P. rewrite incirc_rot. apply H; auto.
Qed.

Definition tri_is (t : triangle RX) (a b c : tvert RX) : Prop := forall x, In x (corners t) <-> x = a \/ x = b \/ x = c.
Lemma tri_perm t a b c : tri_is t a b c -> distinct3 (ta t) (tb t) (tc t) -> distinct3 a b c ->
  (a = ta t /\ b = tb t /\ c = tc t) \/ (a = ta t /\ b = tc t /\ c = tb t) \/ (a = tb t /\ b = ta t /\ c = tc t) \/
  (a = tb t /\ b = tc t /\ c = ta t) \/ (a = tc t /\ b = ta t /\ c = tb t) \/ (a = tc t /\ b = tb t /\ c = ta t).
Proof.
  intros H (N1 & N2 & N3) (M1 & M2 & M3).
  assert (A : In a (corners t)) by (apply H; auto). assert (B : In b (corners t)) by (apply H; auto). assert (C : In c (corners t)) by (apply H; auto).
  cbn in A, B, C. destruct A as [A|[A|[A|[]]]], B as [B|[B|[B|[]]]], C as [C|[C|[C|[]]]]; subst; try congruence; tauto.
Qed.
Lemma D_tri S t a b c : tri_is t a b c -> distinct3 (ta t) (tb t) (tc t) -> distinct3 a b c -> (D S a b c <-> D S (ta t) (tb t) (tc t)).
Proof.
  intros H1 H2 H3. destruct (tri_perm H1 H2 H3) as [(-> & -> & ->)|[(-> & -> & ->)|[(-> & -> & ->)|[(-> & -> & ->)|[(-> & -> & ->)|(-> & -> & ->)]]]]]; [tauto| | | | |];
    split; intros K; auto using D_swap, D_rot.
Qed.
Lemma P_tri t a b c v : tri_is t a b c -> distinct3 (ta t) (tb t) (tc t) -> distinct3 a b c -> P a b c v = P (ta t) (tb t) (tc t) v.
Proof.
  intros H1 H2 H3. destruct (tri_perm H1 H2 H3) as [(-> & -> & ->)|[(-> & -> & ->)|[(-> & -> & ->)|[(-> & -> & ->)|[(-> & -> & ->)|(-> & -> & ->)]]]]];
    unfold P, incirc, area2, dotp; ring.
Qed.

Lemma list_min A (f g : A -> R) S : (exists p, In p S /\ 0 < g p) -> exists c, In c S /\ 0 < g c /\ forall p, In p S -> 0 < g p -> f c <= f p.
Proof.
  induction S as [|x t IH]; intros (p & Hp & Hg); [destruct Hp|].
  destruct (Rlt_dec 0 (g x)) as [Gx|Gx].
  - assert (Dec : (exists p, In p t /\ 0 < g p) \/ ~ (exists p, In p t /\ 0 < g p)).
    { clear. induction t as [|y u [H|H]]; [right; intros (p & [] & _)|left; destruct H as (p & Hp & H); exists p; split; [right|]; auto|].
      destruct (Rlt_dec 0 (g y)) as [G|G]; [left; exists y; split; [left|]; auto|]. right. intros (p & [<-|Hp] & Hq); [auto|]. apply H. eauto. }
    destruct Dec as [E|E].
    + destruct (IH E) as (c & Hc & Gc & Hm). destruct (Rle_dec (f x) (f c)) as [L|L].
      * exists x. split; [left; reflexivity|]. split; [exact Gx|]. intros q [<-|Hq] Gq; [lra|]. specialize (Hm q Hq Gq). lra.
      * exists c. split; [right; exact Hc|]. split; [exact Gc|]. intros q [<-|Hq] Gq; [lra|]. apply Hm; auto.
    + exists x. split; [left; reflexivity|]. split; [exact Gx|]. intros q [<-|Hq] Gq; [lra|]. exfalso. eauto.
  - destruct Hp as [<-|Hp]; [contradiction|]. destruct IH as (c & Hc & Gc & Hm); [eauto|].
    exists c. split; [right; exact Hc|]. split; [exact Gc|]. intros q [<-|Hq] Gq; [contradiction|]. apply Hm; auto.
Qed.

Section General.
Variable V : list (tvert RX).
Hypothesis HV : tidy V.
Hypothesis HG : general (map loc V).

Lemma loc_neq a b : In a V -> In b V -> a <> b -> loc a <> loc b.
Proof. intros Ha Hb N E. apply N. destruct HV as (_ & _ & H). apply H; auto. Qed.
Lemma area_neq a b c : In a V -> In b V -> In c V -> distinct3 a b c -> area2 (loc a) (loc b) (loc c) <> 0.
Proof. intros Ha Hb Hc (N1 & N2 & N3). destruct HG as [H _]. apply H; try (apply in_map; assumption); apply loc_neq; assumption. Qed.
Lemma P_sign a b c v : In a V -> In b V -> In c V -> In v V -> distinct3 a b c -> v <> a -> v <> b -> v <> c -> P a b c v < 0 \/ 1 / 100000000 < P a b c v.
Proof.
  intros Ha Hb Hc Hv N M1 M2 M3. assert (A := area_neq Ha Hb Hc N). destruct (centre_exists A) as (o & Ho).
  destruct HG as [_ H]. destruct N as (N1 & N2 & N3).
  destruct (H (loc a) (loc b) (loc c) (loc v) o) as [K|K]; try (apply in_map; assumption); try (apply loc_neq; assumption); [exact Ho| |].
  - left. apply outside_neg; [exact A|]. exists o. auto.
  - right. unfold P. rewrite (incirc_centre _ Ho). exact K.
Qed.
Definition ar (a b p : tvert RX) := area2 (loc a) (loc b) (loc p).
Definition la (a b p : tvert RX) := lam (loc a) (loc b) (loc p).
Lemma P_neg a b c v : In a V -> In b V -> In c V -> In v V -> distinct3 a b c -> v <> a -> v <> b ->
  (P a b c v < 0 <-> ar a b v * (la a b c - la a b v) < 0) /\ (0 < P a b c v <-> 0 < ar a b v * (la a b c - la a b v)).
Proof.
  intros Ha Hb Hc Hv N M1 M2. assert (A := area_neq Ha Hb Hc N). destruct N as (N1 & N2 & N3).
  assert (A' : area2 (loc a) (loc b) (loc v) <> 0) by (apply area_neq; auto; repeat split; auto).
  unfold P. rewrite (incirc_lam A A'). fold (ar a b c) (ar a b v) (la a b c) (la a b v). fold (ar a b c) in A.
  assert (Q := sq_pos A). set (k := ar a b c * ar a b c) in *. set (y := ar a b v * (la a b c - la a b v)).
  split; split; intros H.
  - destruct (Rlt_dec y 0); [assumption|]. exfalso. assert (0 <= k * y) by (apply Rmult_le_pos; lra). lra.
  - replace (k * y) with (- (k * - y)) by ring. assert (0 < k * - y) by (apply Rmult_lt_0_compat; lra). lra.
  - destruct (Rlt_dec 0 y); [assumption|]. exfalso. assert (0 <= k * - y) by (apply Rmult_le_pos; lra). replace (k * y) with (- (k * - y)) in H by ring. lra.
  - apply Rmult_lt_0_compat; assumption.
Qed.
Lemma side_pos x d : 0 < x -> ((x * d < 0 <-> d < 0) /\ (0 < x * d <-> 0 < d)).
Proof.
  intros H. split; split; intros K.
  - destruct (Rlt_dec d 0); [assumption|]. assert (0 <= x * d) by (apply Rmult_le_pos; lra). lra.
  - replace (x * d) with (- (x * - d)) by ring. assert (0 < x * - d) by (apply Rmult_lt_0_compat; lra). lra.
  - destruct (Rlt_dec 0 d); [assumption|]. assert (0 <= x * - d) by (apply Rmult_le_pos; lra). replace (x * d) with (- (x * - d)) in K by ring. lra.
  - apply Rmult_lt_0_compat; assumption.
Qed.
Lemma side_neg x d : x < 0 -> ((x * d < 0 <-> 0 < d) /\ (0 < x * d <-> d < 0)).
Proof.
  intros H. replace (x * d) with (- x * - d) by ring. destruct (@side_pos (- x) (- d)) as [K1 K2]; [lra|]. rewrite K1, K2. split; split; lra.
Qed.

(** ** The pencil of circles through an edge *)
Section Pencil.
Variable S : list (tvert RX).
Hypothesis HS : incl S V.
Variables a b : tvert RX.
Hypothesis Ha : In a S.
Hypothesis Hb : In b S.
Hypothesis Hab : a <> b.

Lemma ar_a : ar a b a = 0. Proof. unfold ar, area2. ring. Qed.
Lemma ar_b : ar a b b = 0. Proof. unfold ar, area2. ring. Qed.
Lemma ar_off p : ar a b p <> 0 -> p <> a /\ p <> b.
Proof. intros H. split; intros ->; [rewrite ar_a in H|rewrite ar_b in H]; auto. Qed.
Lemma ar_on p : In p V -> p <> a -> p <> b -> ar a b p <> 0.
Proof. intros Hp N1 N2. apply area_neq; [apply HS; exact Ha|apply HS; exact Hb|exact Hp|]. repeat split; auto. Qed.
Lemma sides p : In p V -> p <> a -> p <> b -> 0 < ar a b p \/ ar a b p < 0.
Proof. intros Hp N1 N2. assert (H := ar_on Hp N1 N2). destruct (Rtotal_order (ar a b p) 0) as [|[|]]; auto; contradiction. Qed.

(** [c] is the third corner exactly when it is extremal on its side and
    beyond the extremal ones of the other side *)
Lemma D_lam c : In c S -> c <> a -> c <> b ->
  (D S a b c <-> (forall p, In p S -> p <> c -> 0 < ar a b p -> la a b c < la a b p) /\ (forall p, In p S -> p <> c -> ar a b p < 0 -> la a b p < la a b c)).
Proof.
  intros Hc N1 N2. assert (N : distinct3 a b c) by (repeat split; auto).
  assert (Va := HS _ Ha). assert (Vb := HS _ Hb). assert (Vc := HS _ Hc).
  split.
  - intros (_ & _ & _ & _ & H). split; intros p Hp Np Ap.
    + destruct (@ar_off p) as [M1 M2]; [lra|]. specialize (H p Hp M1 M2 Np). apply (proj1 (proj1 (@P_neg a b c p Va Vb Vc (HS _ Hp) N M1 M2))) in H.
      apply (proj1 (proj1 (side_pos _ Ap))) in H. lra.
    + destruct (@ar_off p) as [M1 M2]; [lra|]. specialize (H p Hp M1 M2 Np). apply (proj1 (proj1 (@P_neg a b c p Va Vb Vc (HS _ Hp) N M1 M2))) in H.
      apply (proj1 (proj1 (side_neg _ Ap))) in H. lra.
  - intros [H1 H2]. split; [exact Ha|]. split; [exact Hb|]. split; [exact Hc|]. split; [exact N|]. intros p Hp M1 M2 Np.
    apply (proj2 (proj1 (@P_neg a b c p Va Vb Vc (HS _ Hp) N M1 M2))). destruct (sides (HS _ Hp) M1 M2) as [Ap|Ap].
    + apply (proj2 (proj1 (side_pos _ Ap))). specialize (H1 p Hp Np Ap). lra.
    + apply (proj2 (proj1 (side_neg _ Ap))). specialize (H2 p Hp Np Ap). lra.
Qed.
(** circles through different third points are different *)
Lemma la_inj p q : In p V -> In q V -> p <> a -> p <> b -> q <> a -> q <> b -> p <> q -> la a b p <> la a b q.
Proof.
  intros Hp Hq P1 P2 Q1 Q2 N E. assert (Va := HS _ Ha). assert (Vb := HS _ Hb). assert (N3 : distinct3 a b p) by (repeat split; auto).
  destruct (@P_neg a b p q Va Vb Hp Hq N3 Q1 Q2) as [K1 K2]. rewrite E in K1, K2.
  replace (ar a b q * (la a b q - la a b q)) with 0 in K1, K2 by ring.
  destruct (@P_sign a b p q Va Vb Hp Hq N3 Q1 Q2 (not_eq_sym N)) as [H|H]; [apply K1 in H; lra|]. assert (X : 0 < P a b p q) by lra. apply K2 in X. lra.
Qed.

Variable v : tvert RX.
Hypothesis Hv : In v V.
Hypothesis Nv : ~ In v S.
Hypothesis Pv : 0 < ar a b v.
(** there is another vertex on the side of [v] *)
Hypothesis Hplus : exists p, In p S /\ 0 < ar a b p.

Lemma v_off : v <> a /\ v <> b. Proof. apply ar_off. lra. Qed.
Lemma hit_lam c : In c S -> c <> a -> c <> b -> (0 < P a b c v <-> la a b v < la a b c).
Proof.
  intros Hc N1 N2. assert (N : distinct3 a b c) by (repeat split; auto). destruct v_off as [M1 M2].
  rewrite (proj2 (@P_neg a b c v (HS _ Ha) (HS _ Hb) (HS _ Hc) Hv N M1 M2)), (proj2 (side_pos _ Pv)). split; lra.
Qed.
Lemma new_lam : D (v :: S) v a b <-> (forall p, In p S -> 0 < ar a b p -> la a b v < la a b p) /\ (forall p, In p S -> ar a b p < 0 -> la a b p < la a b v).
Proof.
  destruct v_off as [M1 M2]. assert (N : distinct3 a b v) by (repeat split; auto). assert (Va := HS _ Ha). assert (Vb := HS _ Hb).
  split.
  - intros (_ & _ & _ & _ & H). split; intros p Hp Ap; destruct (@ar_off p) as [A1 A2]; try lra;
      (assert (Np : p <> v) by (intros ->; auto)); specialize (H p (or_intror Hp) Np A1 A2);
      unfold P in H; rewrite <- incirc_rot in H; change (incirc (loc a) (loc b) (loc v) (loc p)) with (P a b v p) in H;
      apply (proj1 (proj1 (@P_neg a b v p Va Vb Hv (HS _ Hp) N A1 A2))) in H.
    + apply (proj1 (proj1 (side_pos _ Ap))) in H. lra.
    + apply (proj1 (proj1 (side_neg _ Ap))) in H. lra.
  - intros [H1 H2]. split; [left; reflexivity|]. split; [right; exact Ha|]. split; [right; exact Hb|].
    split; [repeat split; auto|]. intros p [<-|Hp] Np A1 A2; [congruence|].
    unfold P. rewrite <- incirc_rot. change (incirc (loc a) (loc b) (loc v) (loc p)) with (P a b v p).
    apply (proj2 (proj1 (@P_neg a b v p Va Vb Hv (HS _ Hp) N A1 A2))). destruct (sides (HS _ Hp) A1 A2) as [Ap|Ap].
    + apply (proj2 (proj1 (side_pos _ Ap))). specialize (H1 p Hp Ap). lra.
    + apply (proj2 (proj1 (side_neg _ Ap))). specialize (H2 p Hp Ap). lra.
Qed.
(** the extremal points *)
Lemma plus_min : exists c, In c S /\ 0 < ar a b c /\ forall p, In p S -> p <> c -> 0 < ar a b p -> la a b c < la a b p.
Proof.
  destruct (@list_min _ (la a b) (ar a b) S Hplus) as (c & Hc & Ac & Hm). exists c. split; [exact Hc|]. split; [exact Ac|].
  intros p Hp Np Ap. destruct (Hm p Hp Ap) as [L|L]; [exact L|]. exfalso.
  destruct (@ar_off p) as [A1 A2]; [lra|]. destruct (@ar_off c) as [B1 B2]; [lra|].
  apply (@la_inj c p (HS _ Hc) (HS _ Hp)); auto.
Qed.
Lemma minus_max : (exists p, In p S /\ ar a b p < 0) -> exists c, In c S /\ ar a b c < 0 /\ forall p, In p S -> p <> c -> ar a b p < 0 -> la a b p < la a b c.
Proof.
  intros (q & Hq & Aq). destruct (@list_min _ (fun p => - la a b p) (fun p => - ar a b p) S) as (c & Hc & Ac & Hm); [exists q; split; [exact Hq|lra]|].
  exists c. split; [exact Hc|]. split; [lra|]. intros p Hp Np Ap. assert (Ap' : 0 < - ar a b p) by lra.
  destruct (Hm p Hp Ap') as [L|L]; [lra|]. exfalso.
  destruct (@ar_off p) as [A1 A2]; [lra|]. destruct (@ar_off c) as [B1 B2]; [lra|].
  apply (@la_inj c p (HS _ Hc) (HS _ Hp)); auto. lra.
Qed.
Definition hit3 (c : tvert RX) : Prop := D S a b c /\ 0 < P a b c v.

Lemma geo_fwd : D (v :: S) v a b -> exists c, hit3 c /\ forall c', hit3 c' -> c' = c.
Proof.
  intros H. apply new_lam in H. destruct H as [H1 H2]. destruct plus_min as (c & Hc & Ac & Hm). destruct (@ar_off c) as [B1 B2]; [lra|].
  exists c. split.
  - split; [|apply hit_lam; auto]. apply D_lam; auto. split; [exact Hm|]. intros p Hp Np Ap. apply Rlt_trans with (la a b v); auto.
  - intros c' [Dc Pc]. assert (Hc' : In c' S) by apply Dc. assert (C1 : c' <> a) by (destruct Dc as (_ & _ & _ & (_ & _ & N) & _); auto).
    assert (C2 : c' <> b) by (destruct Dc as (_ & _ & _ & (_ & N & _) & _); auto).
    apply hit_lam in Pc; auto. destruct (sides (HS _ Hc') C1 C2) as [A|A]; [|specialize (H2 c' Hc' A); lra].
    destruct (string_dec (tv_id c') (tv_id c)) as [E|E]; [destruct HV as (_ & Hi & _); apply Hi; auto|].
    assert (N : c' <> c) by congruence. apply D_lam in Dc; auto. destruct Dc as [D1 _].
    assert (X := D1 c Hc (not_eq_sym N) Ac). assert (Y := Hm c' Hc' N A). lra.
Qed.
Lemma geo_back c : hit3 c -> (forall c', hit3 c' -> c' = c) -> D (v :: S) v a b.
Proof.
  intros [Dc Pc] Hu. assert (Hc : In c S) by apply Dc. assert (C1 : c <> a) by (destruct Dc as (_ & _ & _ & (_ & _ & N) & _); auto).
  assert (C2 : c <> b) by (destruct Dc as (_ & _ & _ & (_ & N & _) & _); auto).
  apply hit_lam in Pc; auto. assert (Dl := proj1 (D_lam Hc C1 C2) Dc). destruct Dl as [D1 D2].
  destruct (sides (HS _ Hc) C1 C2) as [A|A].
  - apply new_lam. split.
    + intros p Hp Ap. destruct (string_dec (tv_id p) (tv_id c)) as [E|E].
      { assert (p = c) by (destruct HV as (_ & Hi & _); apply Hi; auto). subst p. exact Pc. }
      assert (N : p <> c) by congruence. specialize (D1 p Hp N Ap). lra.
    + intros p Hp Ap. destruct minus_max as (c' & Hc' & Ac' & Hm); [eauto|]. destruct (@ar_off c') as [B1 B2]; [lra|].
      assert (N' : c' <> c) by (intros ->; lra).
      assert (Dc' : D S a b c').
      { apply D_lam; auto. split; [|exact Hm]. intros q Hq Nq Aq.
        assert (X := D2 c' Hc' N' Ac'). destruct (string_dec (tv_id q) (tv_id c)) as [E|E].
        { assert (q = c) by (destruct HV as (_ & Hi & _); apply Hi; auto). subst q. exact X. }
        assert (Nq' : q <> c) by congruence. assert (Y := D1 q Hq Nq' Aq). lra. }
      assert (Nh : ~ la a b v < la a b c').
      { intros L. apply N'. apply Hu. split; [exact Dc'|]. apply hit_lam; auto. }
      assert (La : la a b c' < la a b v).
      { destruct (Rtotal_order (la a b c') (la a b v)) as [L|[L|L]]; [exact L| |contradiction]. exfalso.
        destruct v_off. apply (@la_inj c' v (HS _ Hc') Hv); auto. intros ->; auto. }
      destruct (string_dec (tv_id p) (tv_id c')) as [E|E].
      { assert (p = c') by (destruct HV as (_ & Hi & _); apply Hi; auto). subst p. exact La. }
      assert (Np : p <> c') by congruence. specialize (Hm p Hp Np Ap). lra.
  - exfalso. destruct plus_min as (c' & Hc' & Ac' & Hm). destruct (@ar_off c') as [B1 B2]; [lra|].
    assert (N' : c' <> c) by (intros ->; lra). apply N', Hu. assert (X := D1 c' Hc' N' Ac').
    split; [|apply hit_lam; auto; lra]. apply D_lam; auto. split; [exact Hm|]. intros q Hq Nq Aq.
    destruct (string_dec (tv_id q) (tv_id c)) as [E|E].
    { assert (q = c) by (destruct HV as (_ & Hi & _); apply Hi; auto). subst q. exact X. }
    assert (Nq' : q <> c) by congruence. assert (Y := D2 q Hq Nq' Aq). lra.
Qed.
(** at most one third corner on each side *)
Lemma third_side c c' : D S a b c -> D S a b c' -> (0 < ar a b c <-> 0 < ar a b c') -> c = c'.
Proof.
  intros Dc Dc' Hs. assert (Hc : In c S) by apply Dc. assert (Hc' : In c' S) by apply Dc'.
  assert (C1 : c <> a) by (destruct Dc as (_ & _ & _ & (_ & _ & N) & _); auto). assert (C2 : c <> b) by (destruct Dc as (_ & _ & _ & (_ & N & _) & _); auto).
  assert (C1' : c' <> a) by (destruct Dc' as (_ & _ & _ & (_ & _ & N) & _); auto). assert (C2' : c' <> b) by (destruct Dc' as (_ & _ & _ & (_ & N & _) & _); auto).
  destruct (string_dec (tv_id c) (tv_id c')) as [E|E]; [destruct HV as (_ & Hi & _); apply Hi; auto|]. exfalso. assert (N : c <> c') by congruence.
  apply D_lam in Dc; auto. apply D_lam in Dc'; auto. destruct Dc as [D1 D2], Dc' as [E1 E2].
  destruct (sides (HS _ Hc) C1 C2) as [A|A], (sides (HS _ Hc') C1' C2') as [A'|A'].
  - assert (X := D1 c' Hc' (not_eq_sym N) A'). assert (Y := E1 c Hc N A). lra.
  - apply Hs in A. lra.
  - apply Hs in A'. lra.
  - assert (X := D2 c' Hc' (not_eq_sym N) A'). assert (Y := E2 c Hc N A). lra.
Qed.
End Pencil.

(** every vertex is on the side of another one *)
Definition hull (S : list (tvert RX)) (v : tvert RX) : Prop :=
  forall a b, In a S -> In b S -> 0 < ar a b v -> exists p, In p S /\ 0 < ar a b p.
Lemma ar_swap a b p : ar b a p = - ar a b p. Proof. apply area2_swap. Qed.
Lemma P_swap a b c v : P b a c v = P a b c v. Proof. apply incirc_swap. Qed.
Lemma edge_new S a b v : incl S V -> In a S -> In b S -> a <> b -> In v V -> ~ In v S -> hull S v ->
  (D (v :: S) v a b <-> exists c, (D S a b c /\ 0 < P a b c v) /\ forall c', D S a b c' /\ 0 < P a b c' v -> c' = c).
Proof.
  intros HS Ha Hb Hab Hv Nv Hh.
  assert (N1 : v <> a) by (intros ->; auto). assert (N2 : v <> b) by (intros ->; auto).
  destruct (@sides S HS a b Ha Hb Hab v Hv N1 N2) as [A|A].
  - split.
    + intros H. apply (@geo_fwd S HS a b Ha Hb Hab v Hv Nv A (Hh a b Ha Hb A) H).
    + intros (c & Hc & Hu). eapply geo_back; eauto.
  - assert (A' : 0 < ar b a v) by (rewrite ar_swap; lra).
    assert (T : forall c, (D S a b c /\ 0 < P a b c v) <-> hit3 S b a v c).
    { intros c. unfold hit3. rewrite P_swap. split; intros [H1 H2]; split; auto using D_swap. }
    split.
    + intros H. assert (H' : D (v :: S) v b a) by (apply D_rot, D_rot, D_swap, D_rot; exact H).
      destruct (@geo_fwd S HS b a Hb Ha (not_eq_sym Hab) v Hv Nv A' (Hh b a Hb Ha A') H') as (c & Hc & Hu).
      exists c. split; [apply T, Hc|]. intros c' Hc'. apply Hu, T, Hc'.
    + intros (c & Hc & Hu). assert (H' : D (v :: S) v b a).
      { eapply geo_back; eauto; [apply T, Hc|]. intros c' Hc'. apply Hu, T, Hc'. }
      apply D_rot, D_rot, D_swap, D_rot. exact H'.
Qed.

(** * Edges *)
Definition tri_edges (t : triangle RX) : list (tedge RX) := [t_ab t; t_bc t; t_ac t].
Lemma edge_cases a b : In a V -> In b V -> a <> b -> mk_edge a b = mkTE a b \/ mk_edge a b = mkTE b a.
Proof.
  intros Ha Hb N. assert (Ra := tv_real a HV Ha). assert (Rb := tv_real b HV Hb). unfold mk_edge.
  assert (K1 := tv_ltb_key Ra Rb). assert (K2 := tv_ltb_key Rb Ra).
  destruct (@lexlt_total (vkey a) (vkey b)) as [L|[L|L]]; [reflexivity| | |].
  - assert (L1 : tv_ltb a b = true) by (apply K1, L). assert (L2 : tv_ltb b a = false).
    { apply not_true_is_false. intros E. apply K2 in E. eapply lexlt_irrefl, lexlt_trans; eauto. }
    rewrite L1, L2. auto.
  - exfalso. apply N. apply (@tv_key_eq V a b HV Ha Hb), L.
  - assert (L1 : tv_ltb b a = true) by (apply K2, L). assert (L2 : tv_ltb a b = false).
    { apply not_true_is_false. intros E. apply K1 in E. eapply lexlt_irrefl, lexlt_trans; eauto. }
    rewrite L1, L2. auto.
Qed.
Lemma edge_sym a b : In a V -> In b V -> mk_edge a b = mk_edge b a.
Proof.
  intros Ha Hb. assert (Ra := tv_real a HV Ha). assert (Rb := tv_real b HV Hb). unfold mk_edge.
  destruct (tv_ltb a b) eqn:L1, (tv_ltb b a) eqn:L2; try reflexivity.
  - exfalso. apply (tv_ltb_key Ra Rb) in L1. apply (tv_ltb_key Rb Ra) in L2. eapply lexlt_irrefl, lexlt_trans; eauto.
  - destruct (@lexlt_total (vkey a) (vkey b)) as [L|[L|L]]; [reflexivity| | |].
    + apply (tv_ltb_key Ra Rb) in L. congruence.
    + apply (@tv_key_eq V a b HV Ha Hb) in L. subst; reflexivity.
    + apply (tv_ltb_key Rb Ra) in L. congruence.
Qed.
Lemma edge_ends a b c d : In a V -> In b V -> In c V -> In d V -> a <> b -> c <> d -> mk_edge a b = mk_edge c d -> (a = c /\ b = d) \/ (a = d /\ b = c).
Proof.
  intros Ha Hb Hc Hd N1 N2 E. destruct (edge_cases Ha Hb N1) as [E1|E1], (edge_cases Hc Hd N2) as [E2|E2]; rewrite E1, E2 in E; injection E as -> ->; auto.
Qed.
Definition good_tri (t : triangle RX) : Prop := incl (corners t) V /\ distinct3 (ta t) (tb t) (tc t).
Lemma tri_edge t a b : good_tri t -> In a V -> In b V -> a <> b -> (In (mk_edge a b) (tri_edges t) <-> In a (corners t) /\ In b (corners t)).
Proof.
  intros [Hi (N1 & N2 & N3)] Ha Hb N. assert (V1 : In (ta t) V) by (apply Hi; cbn; auto). assert (V2 : In (tb t) V) by (apply Hi; cbn; auto). assert (V3 : In (tc t) V) by (apply Hi; cbn; auto).
  unfold tri_edges, t_ab, t_bc, t_ac. split.
  - intros [E|[E|[E|[]]]]; symmetry in E; apply edge_ends in E; auto; cbn; destruct E as [[-> ->]|[-> ->]]; auto.
  - cbn [corners In]. intros [[<-|[<-|[<-|[]]]] [<-|[<-|[<-|[]]]]]; try congruence; auto.
    + left. apply edge_sym; auto.
    + right. right. left. apply edge_sym; auto.
    + right. left. apply edge_sym; auto.
Qed.
Lemma te_eqb_spec e f : ends_in V e -> ends_in V f -> (te_eqb e f = true <-> e = f).
Proof.
  intros [A1 A2] [B1 B2]. unfold te_eqb. rewrite andb_true_iff, (@tv_eqb_key V _ _ HV A1 B1), (@tv_eqb_key V _ _ HV A2 B2).
  destruct e as [x y], f as [z w]. cbn. split; [intros [-> ->]; reflexivity|intros E; injection E; auto].
Qed.
Definition cnt (e : tedge RX) (l : list (tedge RX)) : nat := List.length (filter (te_eqb e) l).
Lemma cnt_app e l m : cnt e (l ++ m) = (cnt e l + cnt e m)%nat.
Proof. unfold cnt. rewrite filter_app, app_length. reflexivity. Qed.
Lemma cnt_cons e f l : cnt e (f :: l) = ((if te_eqb e f then 1 else 0) + cnt e l)%nat.
Proof. unfold cnt. cbn [filter]. destruct (te_eqb e f); reflexivity. Qed.
Lemma cnt_perm e l m : Permutation l m -> cnt e l = cnt e m.
Proof. induction 1; rewrite ?cnt_cons; lia. Qed.
Lemma cnt_in e l : ends_in V e -> Forall (ends_in V) l -> ((0 < cnt e l)%nat <-> In e l).
Proof.
  intros He. induction l as [|f t IH]; intros H; [cbn; split; [lia|intros []]|]. inversion H as [|? ? Hf Ht]; subst. rewrite cnt_cons.
  destruct (te_eqb e f) eqn:E.
  - apply te_eqb_spec in E; auto. subst f. split; [intros _; left; reflexivity|lia].
  - assert (N : f <> e) by (intros ->; rewrite (proj2 (te_eqb_spec He He) eq_refl) in E; discriminate). 
    cbn [In]. split; [intros X; right; apply (IH Ht); lia|]. intros [X|X]; [contradiction|]. apply (IH Ht) in X. lia.
Qed.

(** the edges left after dropping equal neighbours are those occurring once *)
Fixpoint once (es : list (tedge RX)) : list (tedge RX) :=
  match es with
  | [] => []
  | e :: rest => match rest with
                 | e' :: rest' => if te_eqb e e' then once rest' else e :: once rest
                 | [] => [e]
                 end
  end.
Lemma fan_once v es : fan v es = map (fun e => mkT v (te_b e) (te_e e)) (once es).
Proof.
  remember (List.length es) as n. revert es Heqn. induction n as [n IH] using lt_wf_ind. intros es Hn.
  destruct es as [|e [|e' r]]; [reflexivity|reflexivity|]. cbn [fan once]. destruct (te_eqb e e').
  - eapply IH; [|reflexivity]. cbn in Hn; lia.
  - cbn [map]. f_equal. change (fan v (e' :: r) = map (fun e => mkT v (te_b e) (te_e e)) (once (e' :: r))). eapply IH; [|reflexivity]. cbn in *; lia.
Qed.
Lemma te_total e f : ends_in V e -> ends_in V f -> te_ltb e f = false -> te_ltb f e = false -> e = f.
Proof.
  intros He Hf L1 L2. destruct He as [A1 A2], Hf as [B1 B2].
  assert (K : forall e f, In (te_b e) V -> In (te_e e) V -> In (te_b f) V -> In (te_e f) V ->
     (te_ltb e f = true <-> lexlt (vkey (te_b e) ++ vkey (te_e e)) (vkey (te_b f) ++ vkey (te_e f)))).
  { clear e f A1 A2 B1 B2 L1 L2. intros e f A1 A2 B1 B2. rewrite lexlt_app by reflexivity. unfold te_ltb. rewrite orb_true_iff, andb_true_iff.
    rewrite (@tv_eqb_key V _ _ HV A1 B1), (@tv_key_eq V _ _ HV A1 B1). rewrite !tv_ltb_key by (eapply tv_real; eauto). tauto. }
  destruct (@lexlt_total (vkey (te_b e) ++ vkey (te_e e)) (vkey (te_b f) ++ vkey (te_e f))) as [L|[L|L]]; [reflexivity| | |].
  - apply K in L; auto. congruence.
  - destruct e as [x y], f as [z w]. cbn [te_b te_e] in *. unfold vkey in L. cbn in L. injection L as E1 E2 E3 E4.
    f_equal; [apply (@tv_key_eq V _ _ HV A1 B1)|apply (@tv_key_eq V _ _ HV A2 B2)]; unfold vkey; congruence.
  - apply K in L; auto. congruence.
Qed.
Lemma once_spec es : Forall (ends_in V) es -> StronglySorted (fun e f => te_ltb f e = false) es -> (forall e, In e es -> (cnt e es <= 2)%nat) ->
  NoDup (once es) /\ forall e, ends_in V e -> (In e (once es) <-> cnt e es = 1%nat).
Proof.
  remember (List.length es) as n. revert es Heqn. induction n as [n IH] using lt_wf_ind. intros es Hn He Hs Hc.
  destruct es as [|e [|e' r]].
  - split; [constructor|]. intros x Hx. cbn. split; [intros []|discriminate].
  - inversion He as [|? ? He1 _]; subst. split; [repeat constructor; intros []|]. intros x Hx. cbn [once In]. rewrite cnt_cons. unfold cnt. cbn [filter List.length].
    destruct (te_eqb x e) eqn:E.
    + apply te_eqb_spec in E; auto. subst x. tauto.
    + split; [|discriminate]. intros [X|[]]. subst x. rewrite (proj2 (te_eqb_spec He1 He1) eq_refl) in E. discriminate.
  - inversion He as [|? ? He1 He2]; subst. inversion He2 as [|? ? He1' He3]; subst.
    inversion Hs as [|? ? Hs2 Hf]; subst. inversion Hs2 as [|? ? Hs3 Hf2]; subst. cbn [once].
    assert (Refl : te_eqb e e = true) by (apply te_eqb_spec; auto).
    destruct (te_eqb e e') eqn:E.
    + apply te_eqb_spec in E; auto. subst e'.
      destruct (IH (List.length r)) with (es := r) as [N1 N2]; auto; [cbn; lia| |].
      { intros x Hx. assert (K := Hc x (or_intror (or_intror Hx))). rewrite !cnt_cons in K. lia. }
      split; [exact N1|]. intros x Hx. rewrite (N2 x Hx), !cnt_cons. destruct (te_eqb x e) eqn:X; [|lia].
      apply te_eqb_spec in X; auto. subst x. assert (K := Hc e (or_introl eq_refl)). rewrite !cnt_cons, Refl in K. lia.
    + destruct (IH (List.length (e' :: r))) with (es := e' :: r) as [N1 N2]; auto; try (cbn; lia).
      { intros x Hx. assert (K := Hc x (or_intror Hx)). rewrite cnt_cons in K. lia. }
      assert (Z : cnt e (e' :: r) = 0%nat).
      { destruct (cnt e (e' :: r)) eqn:C; [reflexivity|]. exfalso. assert (C' : (0 < cnt e (e' :: r))%nat) by lia. apply cnt_in in C'; auto.
        destruct C' as [C'|C']; [subst e'; congruence|]. rewrite Forall_forall in Hf2. assert (X := Hf2 e C').
        rewrite Forall_forall in Hf. assert (Y := Hf e' (or_introl eq_refl)). assert (e = e') by (apply te_total; auto). subst e'. congruence. }
      split.
      * constructor; [|exact N1]. intros X. apply N2 in X; auto. lia.
      * intros x Hx. cbn [In]. rewrite (N2 x Hx), (cnt_cons x e). destruct (te_eqb x e) eqn:X.
        -- apply te_eqb_spec in X; auto. subst x. rewrite Z. tauto.
        -- split; [intros [Q|Q]; [subst x; congruence|lia]|intros Q; right; lia].
Qed.
(** counting the triangles at an edge *)
Definition has_edge (e : tedge RX) (t : triangle RX) : bool := existsb (te_eqb e) (tri_edges t).
Lemma good_edges t : good_tri t -> Forall (ends_in V) (tri_edges t).
Proof. intros [Hi _]. apply tri_edges_in. exact Hi. Qed.
Lemma cnt_tri e t : good_tri t -> ends_in V e -> cnt e (tri_edges t) = if has_edge e t then 1%nat else 0%nat.
Proof.
  intros Ht He. assert (G := good_edges Ht). destruct Ht as [Hi (N1 & N2 & N3)].
  assert (V1 : In (ta t) V) by (apply Hi; cbn; auto). assert (V2 : In (tb t) V) by (apply Hi; cbn; auto). assert (V3 : In (tc t) V) by (apply Hi; cbn; auto).
  unfold has_edge. unfold tri_edges in *. inversion G as [|? ? G1 Ga]; subst. inversion Ga as [|? ? G2 Gb]; subst. inversion Gb as [|? ? G3 _]; subst.
  rewrite !cnt_cons. cbn [existsb]. unfold cnt. cbn [filter List.length].
  destruct (te_eqb e (t_ab t)) eqn:E1, (te_eqb e (t_bc t)) eqn:E2, (te_eqb e (t_ac t)) eqn:E3; cbn; try reflexivity; exfalso;
    repeat match goal with H : te_eqb e _ = true |- _ => apply te_eqb_spec in H; auto end; subst; unfold t_ab, t_bc, t_ac in *;
    repeat match goal with H : mk_edge _ _ = mk_edge _ _ |- _ => apply edge_ends in H; auto; destruct H as [[? ?]|[? ?]]; congruence end.
Qed.
Lemma cnt_tris e ts : Forall good_tri ts -> ends_in V e -> cnt e (flat_map tri_edges ts) = List.length (filter (has_edge e) ts).
Proof.
  intros H He. induction H as [|t r Ht Hr IH]; [reflexivity|]. cbn [flat_map filter]. rewrite cnt_app, IH, (cnt_tri Ht He).
  destruct (has_edge e t); reflexivity.
Qed.
Lemma has_edge_spec t a b : good_tri t -> In a V -> In b V -> a <> b -> (has_edge (mk_edge a b) t = true <-> In a (corners t) /\ In b (corners t)).
Proof.
  intros Ht Ha Hb N. rewrite <- (tri_edge Ht Ha Hb N). unfold has_edge. rewrite existsb_exists.
  assert (He : ends_in V (mk_edge a b)) by (apply mk_edge_in; auto). assert (G := good_edges Ht). rewrite Forall_forall in G.
  split.
  - intros (f & Hf & E). apply te_eqb_spec in E; auto. subst f. exact Hf.
  - intros H. exists (mk_edge a b). split; [exact H|]. apply te_eqb_spec; auto.
Qed.
(** ** one insertion *)
Lemma NoDup_app_intro A (l m : list A) : NoDup l -> NoDup m -> (forall x, In x l -> In x m -> False) -> NoDup (l ++ m).
Proof.
  induction l as [|x t IH]; intros Hl Hm H; [exact Hm|]. inversion Hl as [|? ? Hx Ht]; subst. cbn [app]. constructor.
  - intros K. apply in_app_or in K. destruct K as [K|K]; [contradiction|]. apply (H x); [left; reflexivity|exact K].
  - apply IH; [assumption|assumption|]. intros y A1 A2. apply (H y); [right; exact A1|exact A2].
Qed.
Definition Inv (S : list (tvert RX)) (T : list (triangle RX)) : Prop :=
  (forall t, In t T -> D S (ta t) (tb t) (tc t)) /\ (forall a b c, D S a b c -> exists t, In t T /\ tri_is t a b c) /\
  NoDup T /\ (forall t t', In t T -> In t' T -> (forall x, In x (corners t) <-> In x (corners t')) -> t = t').
Lemma D_good S t : incl S V -> D S (ta t) (tb t) (tc t) -> good_tri t.
Proof.
  intros HS (A & B & C & N & _). split; [|exact N]. intros x Hx. apply HS. cbn in Hx. destruct Hx as [<-|[<-|[<-|[]]]]; assumption.
Qed.
Lemma third_corner t a b : distinct3 (ta t) (tb t) (tc t) -> In a (corners t) -> In b (corners t) -> a <> b ->
  exists c, tri_is t a b c /\ distinct3 a b c.
Proof.
  intros (N1 & N2 & N3) Ha Hb N. unfold corners in Ha, Hb. cbn in Ha, Hb.
  destruct Ha as [<-|[<-|[<-|[]]]], Hb as [<-|[<-|[<-|[]]]]; try congruence;
   [exists (tc t)|exists (tb t)|exists (tc t)|exists (ta t)|exists (tb t)|exists (ta t)];
   (split; [intros x; unfold corners; cbn; intuition congruence|repeat split; congruence]).
Qed.
Lemma D_same S a b c t : D S a b c -> tri_is t a b c -> D S (ta t) (tb t) (tc t) -> tri_is t a b c /\ distinct3 a b c.
Proof. intros H Ht _. split; [exact Ht|apply H]. Qed.
Lemma tri_is_inj t a b c c' : tri_is t a b c -> tri_is t a b c' -> distinct3 a b c -> distinct3 a b c' -> c = c'.
Proof.
  intros H1 H2 (_ & N2 & N3) (_ & M2 & M3). assert (K : In c (corners t)) by (apply H1; auto). apply H2 in K. destruct K as [K|[K|K]]; congruence.
Qed.
Lemma tri_is_corners t t' a b c : tri_is t a b c -> tri_is t' a b c -> forall x, In x (corners t) <-> In x (corners t').
Proof. intros H1 H2 x. rewrite (H1 x), (H2 x). reflexivity. Qed.

Section Step.
Variable S : list (tvert RX).
Variable T : list (triangle RX).
Variable v : tvert RX.
Hypothesis HS : incl S V.
Hypothesis HI : Inv S T.
Hypothesis Hv : In v V.
Hypothesis Nv : ~ In v S.
Hypothesis Hh : hull S v.

Lemma T_D t : In t T -> D S (ta t) (tb t) (tc t). Proof. apply HI. Qed.
Arguments T_D [t] _.
Lemma T_good t : In t T -> good_tri t. Proof. intros H. eapply D_good; [exact HS|apply T_D; exact H]. Qed.
Arguments T_good [t] _.
Lemma T_v t : In t T -> v <> ta t /\ v <> tb t /\ v <> tc t.
Proof. intros H. destruct (T_D H) as (A & B & C & _). repeat split; intros ->; contradiction. Qed.
Arguments T_v [t] _.
Lemma hit_spec t : In t T -> (circum_contains t v = true <-> 0 < P (ta t) (tb t) (tc t) v) /\ (circum_contains t v = false <-> P (ta t) (tb t) (tc t) v < 0).
Proof.
  intros H. destruct (T_D H) as (A & B & C & N & _). destruct (T_v H) as (M1 & M2 & M3).
  assert (Va := HS _ A). assert (Vb := HS _ B). assert (Vc := HS _ C).
  assert (S1 := P_sign Va Vb Vc Hv N M1 M2 M3).
  rewrite circum_real by (eapply tv_real; eauto).
  assert (E : forall x, In x V -> v <> x -> tv_eqb v x = false).
  { intros x Hx Q. apply not_true_is_false. intros E. apply (@tv_eqb_key V _ _ HV Hv Hx) in E. contradiction. }
  rewrite !E by assumption. cbn [orb negb andb]. destruct (Rltb (1 / 100000000) _) eqn:L.
  - apply Rltb_true in L. split; split; intros K; try reflexivity; try discriminate; lra.
  - apply Rltb_false in L. split; split; intros K; try reflexivity; try discriminate; lra.
Qed.
Arguments hit_spec [t] _.
Definition hits := filter (fun t => circum_contains t v) T.
Definition keeps := filter (fun t => negb (circum_contains t v)) T.
Definition at_edge a b := filter (has_edge (mk_edge a b)) hits.
Lemma at_edge_in t a b : In a S -> In b S -> a <> b ->
  (In t (at_edge a b) <-> In t T /\ exists c, tri_is t a b c /\ D S a b c /\ 0 < P a b c v).
Proof.
  intros Ha Hb N. unfold at_edge, hits. rewrite !filter_In. assert (Va := HS _ Ha). assert (Vb := HS _ Hb). split.
  - intros ((Ht & Hc) & He). split; [exact Ht|]. apply hit_spec in Hc; [|exact Ht]. apply has_edge_spec in He; auto using T_good. destruct He as [E1 E2].
    destruct (T_good Ht) as [_ G]. destruct (third_corner G E1 E2 N) as (c & Hc1 & Hc2). exists c. split; [exact Hc1|].
    split; [apply (D_tri S Hc1 G Hc2); apply T_D, Ht|rewrite (P_tri v Hc1 G Hc2); exact Hc].
  - intros (Ht & c & Hc1 & Hc2 & Hc3). destruct (T_good Ht) as [_ G]. assert (N3 : distinct3 a b c) by apply Hc2. split; [split; [exact Ht|]|].
    + apply hit_spec; [exact Ht|]. rewrite <- (P_tri v Hc1 G N3). exact Hc3.
    + apply has_edge_spec; auto using T_good. split; apply Hc1; auto.
Qed.
Lemma at_edge_nodup a b : NoDup (at_edge a b).
Proof. unfold at_edge, hits. apply NoDup_filter, NoDup_filter. apply HI. Qed.
Lemma at_edge_same a b c t t' : In t (at_edge a b) -> In t' (at_edge a b) -> tri_is t a b c -> tri_is t' a b c -> t = t'.
Proof.
  intros H H' Ht Ht'. apply HI; [| |eapply tri_is_corners; eauto]; unfold at_edge, hits in *; rewrite !filter_In in *; tauto.
Qed.
Lemma at_edge_two a b : In a S -> In b S -> a <> b -> (List.length (at_edge a b) <= 2)%nat.
Proof.
  intros Ha Hb N. assert (Hn := at_edge_nodup a b). assert (Hs := @at_edge_same a b). assert (Hi := fun t => proj1 (@at_edge_in t a b Ha Hb N)).
  destruct (at_edge a b) as [|t1 [|t2 [|t3 r]]]; cbn [List.length]; try lia. exfalso.
  inversion Hn as [|? ? X1 Hn1]; subst. inversion Hn1 as [|? ? X2 Hn2]; subst.
  destruct (Hi t1) as (_ & c1 & A1 & D1 & _); [cbn; auto|]. destruct (Hi t2) as (_ & c2 & A2 & D2 & _); [cbn; auto|]. destruct (Hi t3) as (_ & c3 & A3 & D3 & _); [cbn; auto|].
  assert (K : forall c c' t t', t <> t' -> In t (t1 :: t2 :: t3 :: r) -> In t' (t1 :: t2 :: t3 :: r) -> tri_is t a b c -> tri_is t' a b c' -> D S a b c -> D S a b c' ->
     ~ (0 < ar a b c <-> 0 < ar a b c')).
  { intros c c' t t' Q I1 I2 Y1 Y2 Z1 Z2 W. assert (c = c') by (eapply (@third_side S HS a b Ha Hb N); eauto). subst c'. apply Q. eapply Hs; eauto. }
  assert (K12 := K c1 c2 t1 t2 ltac:(intros ->; apply X1; cbn; auto) ltac:(cbn; auto) ltac:(cbn; auto) A1 A2 D1 D2).
  assert (K13 := K c1 c3 t1 t3 ltac:(intros ->; apply X1; cbn; auto) ltac:(cbn; auto) ltac:(cbn; auto) A1 A3 D1 D3).
  assert (K23 := K c2 c3 t2 t3 ltac:(intros ->; apply X2; cbn; auto) ltac:(cbn; auto) ltac:(cbn; auto) A2 A3 D2 D3).
  destruct (Rlt_dec 0 (ar a b c1)), (Rlt_dec 0 (ar a b c2)), (Rlt_dec 0 (ar a b c3)); tauto.
Qed.
Lemma at_edge_one a b : In a S -> In b S -> a <> b -> (List.length (at_edge a b) = 1%nat <-> D (v :: S) v a b).
Proof.
  intros Ha Hb N. rewrite (edge_new HS Ha Hb N Hv Nv Hh). split.
  - intros L. assert (Hi := fun t => @at_edge_in t a b Ha Hb N). destruct (at_edge a b) as [|t [|t' r]]; try discriminate.
    destruct (proj1 (Hi t) (or_introl eq_refl)) as (Ht & c & A & B & C). exists c. split; [auto|]. intros c' (B' & C').
    destruct HI as (_ & I2 & _). destruct (I2 _ _ _ B') as (t' & Ht' & A').
    assert (In t' [t]) by (apply Hi; split; [exact Ht'|]; exists c'; auto). destruct H as [<-|[]]. eapply tri_is_inj; [exact A'|exact A|apply B'|apply B].
  - intros (c & (B & C) & U). destruct HI as (_ & I2 & _). destruct (I2 _ _ _ B) as (t & Ht & A).
    assert (Hn := at_edge_nodup a b). assert (Hs := @at_edge_same a b). assert (Hi := fun t => @at_edge_in t a b Ha Hb N).
    assert (In t (at_edge a b)) by (apply Hi; split; [exact Ht|]; exists c; auto).
    assert (All : forall t', In t' (at_edge a b) -> t' = t).
    { intros t' Ht'. destruct (proj1 (Hi t') Ht') as (_ & c' & A' & B' & C'). assert (c' = c) by (apply U; auto). subst c'. eapply Hs; eauto. }
    destruct (at_edge a b) as [|t1 [|t2 r]]; [destruct H|reflexivity|]. exfalso. inversion Hn as [|? ? X1 _]; subst. apply X1. left.
    rewrite (All t1), (All t2); cbn; auto.
Qed.
(** the edges of the removed triangles *)
Lemma hit_good : Forall good_tri hits.
Proof. apply Forall_forall. intros t Ht. unfold hits in Ht. apply filter_In in Ht. apply T_good, Ht. Qed.
Lemma hit_edge_form e : In e (flat_map tri_edges hits) -> exists a b, In a S /\ In b S /\ a <> b /\ e = mk_edge a b.
Proof.
  intros H. apply in_flat_map in H. destruct H as (t & Ht & He). unfold hits in Ht. apply filter_In in Ht. destruct (T_D (proj1 Ht)) as (A & B & C & (N1 & N2 & N3) & _).
  unfold tri_edges, t_ab, t_bc, t_ac in He. cbn in He. destruct He as [<-|[<-|[<-|[]]]]; eauto 8.
Qed.
Lemma hit_ends : Forall (ends_in V) (flat_map tri_edges hits).
Proof. apply Forall_forall. intros e He. destruct (hit_edge_form _ He) as (a & b & Ha & Hb & _ & ->). apply mk_edge_in; auto. Qed.
Lemma ends_cases e a b : In a S -> In b S -> a <> b -> e = mk_edge a b -> (te_b e = a /\ te_e e = b) \/ (te_b e = b /\ te_e e = a).
Proof. intros Ha Hb N ->. destruct (edge_cases (HS _ Ha) (HS _ Hb) N) as [-> | ->]; cbn; auto. Qed.

Lemma step es : Permutation es (flat_map tri_edges hits) -> StronglySorted (fun e f => te_ltb f e = false) es -> Inv (v :: S) (keeps ++ fan v es).
Proof.
  intros Hp Hs.
  assert (He : Forall (ends_in V) es) by (eapply Permutation_Forall; [symmetry; exact Hp|exact hit_ends]).
  assert (Hcnt : forall a b, In a S -> In b S -> a <> b -> cnt (mk_edge a b) es = List.length (at_edge a b)).
  { intros a b Ha Hb N. rewrite (cnt_perm (mk_edge a b) Hp). apply cnt_tris; [exact hit_good|apply mk_edge_in; auto]. }
  assert (Hform : forall e, In e es -> exists a b, In a S /\ In b S /\ a <> b /\ e = mk_edge a b).
  { intros e H. apply hit_edge_form. eapply Permutation_in; eauto. }
  destruct (@once_spec es He Hs) as [Hnd Hone].
  { intros e H. destruct (Hform e H) as (a & b & Ha & Hb & N & ->). rewrite Hcnt by assumption. apply at_edge_two; assumption. }
  assert (Hfan : forall t, In t (fan v es) <-> exists e, In e (once es) /\ t = mkT v (te_b e) (te_e e)).
  { intros t. rewrite fan_once, in_map_iff. split; intros (e & A & B); exists e; auto. }
  assert (Hnew : forall e, In e (once es) -> exists a b, In a S /\ In b S /\ a <> b /\ e = mk_edge a b /\ D (v :: S) v a b).
  { intros e H. assert (Hin : ends_in V e).
    { assert (X : Forall (ends_in V) (once es)); [|rewrite Forall_forall in X; auto]. clear - He. remember (List.length es) as n. revert es Heqn He.
      induction n as [n IH] using lt_wf_ind. intros es Hn He. destruct es as [|e [|e' r]]; [constructor|exact He|]. inversion He as [|? ? A B]; subst. inversion B as [|? ? A' B']; subst.
      cbn [once]. destruct (te_eqb e e'); [eapply IH; [|reflexivity|exact B']; cbn; lia|]. constructor; [exact A|]. change (Forall (ends_in V) (once (e' :: r))). eapply IH; [|reflexivity|exact B]; cbn; lia. }
    assert (C := proj1 (Hone e Hin) H). assert (In e es) by (apply cnt_in; auto; lia). destruct (Hform e H0) as (a & b & Ha & Hb & N & E). exists a, b.
    repeat (split; [assumption|]). apply at_edge_one; auto. rewrite <- Hcnt, <- E; auto. }
  assert (Hback : forall a b, D (v :: S) v a b -> In a S /\ In b S /\ a <> b /\ In (mk_edge a b) (once es)).
  { intros a b H. assert (H' := H). destruct H' as (_ & A & B & (N1 & N2 & N3) & _). assert (Ha : In a S) by (destruct A; [congruence|assumption]). assert (Hb : In b S) by (destruct B; [congruence|assumption]).
    repeat (split; [assumption|]). apply Hone; [apply mk_edge_in; auto|]. rewrite Hcnt by assumption. apply at_edge_one; assumption. }
  assert (Hkeep : forall t, In t keeps <-> In t T /\ P (ta t) (tb t) (tc t) v < 0).
  { intros t. unfold keeps. rewrite filter_In, negb_true_iff. split; intros [A B]; (split; [exact A|]); apply (hit_spec A); exact B. }
  assert (Dk : forall t, In t keeps -> D (v :: S) (ta t) (tb t) (tc t)).
  { intros t H. apply Hkeep in H. destruct H as [H1 H2]. destruct (T_D H1) as (A & B & C & N & E). repeat split; try (right; assumption); try apply N.
    intros p [<-|Hq] M1 M2 M3; [exact H2|auto]. }
  split; [|split; [|split]].
  - intros t H. apply in_app_or in H. destruct H as [H|H]; [auto|]. apply Hfan in H. destruct H as (e & H & ->). cbn [ta tb tc].
    destruct (Hnew e H) as (a & b & Ha & Hb & N & E & K). destruct (ends_cases Ha Hb N E) as [[-> ->]|[-> ->]]; [exact K|]. apply D_rot, D_swap. exact K.
  - assert (Main : forall a b, D (v :: S) v a b -> exists t, In t (keeps ++ fan v es) /\ tri_is t v a b).
    { intros a b H. destruct (Hback a b H) as (Ha & Hb & N & Q). exists (mkT v (te_b (mk_edge a b)) (te_e (mk_edge a b))). split; [apply in_or_app; right; apply Hfan; eauto|].
      destruct (ends_cases Ha Hb N eq_refl) as [[-> ->]|[-> ->]]; intros x; unfold corners; cbn; intuition congruence. }
    intros a b c H. assert (H' := H). destruct H' as (A & B & C & (N1 & N2 & N3) & E).
    destruct A as [A|A]; [subst a; apply Main; exact H|]. destruct B as [B|B].
    { subst b. destruct (Main c a) as (t & Ht & Q); [apply D_rot; exact H|]. exists t. split; [exact Ht|]. intros x. rewrite (Q x). tauto. }
    destruct C as [C|C].
    { subst c. destruct (Main a b) as (t & Ht & Q); [apply D_rot, D_rot; exact H|]. exists t. split; [exact Ht|]. intros x. rewrite (Q x). tauto. }
    assert (K : D S a b c) by (repeat split; auto; intros p Hq; apply E; right; exact Hq). assert (Pv : P a b c v < 0) by (apply E; [left; reflexivity| | |]; intros ->; contradiction).
    destruct HI as (I1 & I2 & _). destruct (I2 a b c K) as (t & Ht & Q). exists t. split; [|exact Q]. apply in_or_app. left. apply Hkeep. split; [exact Ht|].
    rewrite <- (P_tri v Q); [exact Pv|apply (I1 t Ht)|apply K].
  - apply NoDup_app_intro.
    + apply NoDup_filter, HI.
    + rewrite fan_once. apply FinFun.Injective_map_NoDup; [|exact Hnd]. intros [x y] [z w] Q. cbn in Q. injection Q as -> ->. reflexivity.
    + intros t A B. apply Hfan in B. destruct B as (e & _ & ->). apply Hkeep in A. destruct A as [A _]. destruct (T_v A) as [Q _]. apply Q. reflexivity.
  - assert (Cross : forall t t', In t keeps -> In t' (fan v es) -> (forall x, In x (corners t) <-> In x (corners t')) -> False).
    { intros t t' A B C. apply Hfan in B. destruct B as (e & _ & ->). apply Hkeep in A. destruct A as [A _]. destruct (T_v A) as (Q1 & Q2 & Q3).
      assert (K : In v (corners t)) by (apply C; cbn; auto). cbn in K. destruct K as [K|[K|[K|[]]]]; congruence. }
    intros t t' A B C. apply in_app_or in A, B. destruct A as [A|A], B as [B|B].
    + apply Hkeep in A, B. apply HI; tauto.
    + exfalso. eapply Cross; eauto.
    + exfalso. eapply Cross; [exact B|exact A|]. intros x. symmetry. apply C.
    + apply Hfan in A, B. destruct A as (e & A & ->), B as (f & B & ->). destruct (Hnew e A) as (a & b & Ha & Hb & N & E & _). destruct (Hnew f B) as (c & d & Hc & Hd & M & G & _).
      assert (Sub : forall x, x = te_b e \/ x = te_e e <-> x = te_b f \/ x = te_e f).
      { assert (Q : forall x, x <> v -> (x = te_b e \/ x = te_e e <-> x = te_b f \/ x = te_e f)).
        { assert (Half : forall (g h : tedge RX) x, (forall y, In y (corners (mkT v (te_b g) (te_e g))) -> In y (corners (mkT v (te_b h) (te_e h)))) -> x <> v ->
              x = te_b g \/ x = te_e g -> x = te_b h \/ x = te_e h).
          { clear. intros g h x Hs Nx W. assert (K : In x (corners (mkT v (te_b h) (te_e h)))) by (apply Hs; right; destruct W as [W|W]; rewrite W; cbn; auto).
            destruct K as [K|[K|[K|[]]]]; cbn in K; [symmetry in K; contradiction|left; auto|right; auto]. }
          intros x Nx. split; apply Half; auto; intros y; apply C. }
        intros x. destruct (ends_cases Ha Hb N E) as [[X1 X2]|[X1 X2]], (ends_cases Hc Hd M G) as [[Y1 Y2]|[Y1 Y2]]; rewrite X1, X2, Y1, Y2 in *;
         (split; intros W; (apply Q; [|exact W])); intros ->; destruct W as [W|W]; congruence. }
      assert (e = f) as ->; [|reflexivity]. rewrite E, G.
      assert (Q : (a = c /\ b = d) \/ (a = d /\ b = c)).
      { destruct (ends_cases Ha Hb N E) as [[X1 X2]|[X1 X2]], (ends_cases Hc Hd M G) as [[Y1 Y2]|[Y1 Y2]]; rewrite X1, X2, Y1, Y2 in Sub;
          destruct (proj1 (Sub a)) as [Z1|Z1]; auto; destruct (proj1 (Sub b)) as [Z2|Z2]; auto; congruence. }
      destruct Q as [[-> ->]|[-> ->]]; [reflexivity|apply edge_sym; auto].
Qed.
End Step.
Section Run.
Context {SO : Sorter}.
Lemma insert_step S T v : incl S V -> Inv S T -> In v V -> ~ In v S -> hull S v -> exists T', insert_vertex T v = Ok T' /\ Inv (v :: S) T'.
Proof.
  intros HS HI Hv Nv Hh. unfold insert_vertex. cbv zeta. fold (hits T v) (keeps T v).
  change (flat_map (fun t => [t_ab t; t_bc t; t_ac t]) (hits T v)) with (flat_map tri_edges (hits T v)).
  assert (W : strict_weak_on te_ltb (flat_map tri_edges (hits T v))) by (eapply edges_swo; [exact HV|]; eapply hit_ends; eauto).
  rewrite (sort_res_swo W). cbn [bind]. eexists. split; [reflexivity|]. eapply step; eauto.
  - symmetry. apply ssort_perm, W.
  - apply ssort_sorted, W.
Qed.
Variable sup : list (tvert RX).
Hypothesis Hsup : forall a b v, In a V -> In b V -> In v V -> 0 < ar a b v -> exists p, In p sup /\ 0 < ar a b p.
Lemma insert_run vs : forall S T, incl S V -> incl sup S -> Inv S T -> incl vs V -> NoDup vs -> (forall v, In v vs -> ~ In v S) ->
  exists T', insert_all (Ok T) vs = Ok T' /\ Inv (rev vs ++ S) T'.
Proof.
  induction vs as [|v r IH]; intros S T HS Hs HI Hvs Hn Hd; [cbn; eauto|].
  inversion Hn as [|? ? N1 N2]; subst. assert (Hv : In v V) by (apply Hvs; left; reflexivity).
  destruct (@insert_step S T v HS HI Hv) as (T1 & E & HI1).
  { apply Hd. left; reflexivity. }
  { intros a b Ha Hb K. destruct (Hsup (HS _ Ha) (HS _ Hb) Hv K) as (p & Hp & Q). exists p. split; [apply Hs, Hp|exact Q]. }
  cbn [insert_all fold_left bind]. rewrite E. destruct (IH (v :: S) T1) as (T' & E' & HI').
  - intros x [<-|X]; auto.
  - intros x X. right. apply Hs, X.
  - exact HI1.
  - intros x X. apply Hvs. right; exact X.
  - exact N2.
  - intros x X [<-|Y]; [contradiction|]. apply (Hd x); [right; exact X|exact Y].
  - exists T'. split; [exact E'|]. cbn [rev]. rewrite <- app_assoc. exact HI'.
Qed.
End Run.
Lemma D_ext S S' a b c : (forall x, In x S <-> In x S') -> D S a b c -> D S' a b c.
Proof. intros H (A & B & C & N & E). repeat split; try (apply H; assumption); try apply N. intros p Hp. apply E, H, Hp. Qed.
Lemma Inv_ext S S' T : (forall x, In x S <-> In x S') -> Inv S T -> Inv S' T.
Proof.
  intros H (A & B & C & E). assert (H' : forall x, In x S' <-> In x S) by (intros x; symmetry; apply H). split; [|split; [|split; assumption]].
  - intros t Ht. eapply D_ext; eauto.
  - intros a b c K. apply B. eapply D_ext; eauto.
Qed.
Lemma D_delaunay a b c : In a V -> In b V -> In c V -> (D V a b c <-> delaunay (map loc V) (loc a) (loc b) (loc c)).
Proof.
  intros Ha Hb Hc. assert (Inj : forall x y, In x V -> In y V -> loc x = loc y -> x = y) by apply HV. split.
  - intros (_ & _ & _ & N & H). assert (A := area_neq Ha Hb Hc N). destruct N as (N1 & N2 & N3).
    split; [apply in_map, Ha|]. split; [apply in_map, Hb|]. split; [apply in_map, Hc|].
    split; [apply loc_neq; auto|]. split; [apply loc_neq; auto|]. split; [apply loc_neq; auto|].
    intros p Hp M1 M2 M3. apply in_map_iff in Hp. destruct Hp as (v & <- & Hv). apply (outside_neg _ A). apply H; [exact Hv| | |]; intros ->; congruence.
  - intros (_ & _ & _ & N1 & N2 & N3 & H). assert (N : distinct3 a b c) by (repeat split; congruence). assert (A := area_neq Ha Hb Hc N).
    repeat split; auto; try apply N. intros p Hp M1 M2 M3. apply (outside_neg _ A). apply H; [apply in_map, Hp| | |]; intros E; apply Inj in E; auto.
Qed.
End General.

(** ** the auxiliary triangle *)
Lemma base_inv (v0 v1 v2 : tvert RX) : distinct3 v0 v1 v2 -> Inv [v0; v1; v2] [mkT v0 v1 v2].
Proof.
  intros N. assert (N' := N). destruct N' as (N1 & N2 & N3). split; [|split; [|split]].
  - intros t [<-|[]]. cbn [ta tb tc]. repeat split; cbn; auto; try apply N. intros p [<-|[<-|[<-|[]]]] M1 M2 M3; congruence.
  - intros a b c ([<-|[<-|[<-|[]]]] & [<-|[<-|[<-|[]]]] & [<-|[<-|[<-|[]]]] & (M1 & M2 & M3) & _); try congruence;
      (exists (mkT v0 v1 v2); split; [left; reflexivity|]; intros x; unfold corners; cbn; clear; firstorder).
  - repeat constructor. intros [].
  - intros t t' [<-|[]] [<-|[]] _. reflexivity.
Qed.
Lemma own_corner {SO : Sorter} (v0 v1 v2 v : tvert RX) : In v [v0; v1; v2] -> insert_vertex [mkT v0 v1 v2] v = Ok [mkT v0 v1 v2].
Proof.
  intros H. assert (C : circum_contains (mkT v0 v1 v2) v = false).
  { unfold circum_contains. cbn [ta tb tc]. assert (E : tv_eqb v v0 || tv_eqb v v1 || tv_eqb v v2 = true); [|rewrite E; reflexivity].
    assert (R : forall x : tvert RX, tv_eqb x x = true) by (intros; apply String.eqb_refl).
    destruct H as [<-|[<-|[<-|[]]]]; rewrite R, ?orb_true_r; reflexivity. }
  unfold insert_vertex. cbv zeta. cbn [filter]. rewrite C. cbn [negb flat_map].
  assert (W : strict_weak_on (te_ltb (F := RX)) []) by (repeat split; intros a; intros; contradiction).
  rewrite (sort_res_swo W). cbn [bind]. assert (E : ssort te_ltb ([] : list (tedge RX)) = []) by (apply Permutation_nil; apply ssort_perm, W).
  rewrite E. reflexivity.
Qed.
(** barycentric coordinates *)
Lemma hull_sup (v0 v1 v2 v : tvert RX) k0 k1 k2 : 0 <= k0 -> 0 <= k1 -> 0 <= k2 -> k0 + k1 + k2 = 1 ->
  fst (loc v) = k0 * fst (loc v0) + k1 * fst (loc v1) + k2 * fst (loc v2) -> snd (loc v) = k0 * snd (loc v0) + k1 * snd (loc v1) + k2 * snd (loc v2) ->
  forall a b, 0 < ar a b v -> exists p, In p [v0; v1; v2] /\ 0 < ar a b p.
Proof.
  intros H0 H1 H2 Hk Hx Hy a b H.
  assert (E : ar a b v = k0 * ar a b v0 + k1 * ar a b v1 + k2 * ar a b v2).
  { unfold ar, area2. rewrite Hx, Hy. replace k2 with (1 - k0 - k1) by lra. ring. }
  destruct (Rlt_dec 0 (ar a b v0)) as [L0|L0]; [exists v0; cbn; auto|]. destruct (Rlt_dec 0 (ar a b v1)) as [L1|L1]; [exists v1; cbn; auto|].
  destruct (Rlt_dec 0 (ar a b v2)) as [L2|L2]; [exists v2; cbn; auto|]. exfalso.
  assert (Q : forall k x, 0 <= k -> ~ 0 < x -> k * x <= 0) by (intros k x K X; assert (0 <= k * - x) by (apply Rmult_le_pos; lra); lra).
  assert (A0 := Q k0 _ H0 L0). assert (A1 := Q k1 _ H1 L1). assert (A2 := Q k2 _ H2 L2). lra.
Qed.
Lemma bounds_attained (vs : list (tvert RX)) : Forall real_vert vs -> forall a b c d,
  exists x0 x1 y0 y1, fold_left (fun (b : RX * RX * RX * RX) v =>
      let '(minx, maxx, miny, maxy) := b in
      (if tv_x v <! minx then tv_x v else minx,
       if maxx <! tv_x v then tv_x v else maxx,
       if tv_y v <! miny then tv_y v else miny,
       if maxy <! tv_y v then tv_y v else maxy)) vs ((Some a : RX), (Some b : RX), (Some c : RX), (Some d : RX))
    = ((Some x0 : RX), (Some x1 : RX), (Some y0 : RX), (Some y1 : RX)) /\
   (x0 = a \/ exists v, In v vs /\ x0 = fst (loc v)) /\ (x1 = b \/ exists v, In v vs /\ x1 = fst (loc v)) /\
   (y0 = c \/ exists v, In v vs /\ y0 = snd (loc v)) /\ (y1 = d \/ exists v, In v vs /\ y1 = snd (loc v)).
Proof.
  induction 1 as [|v t Hv Ht IH]; intros a b c d.
  - exists a, b, c, d. cbn. split; [reflexivity|]. auto.
  - cbn [fold_left]. destruct Hv as [Hx Hy]. rewrite Hx, Hy, !rx_ltb. set (p := loc v) in *.
    assert (K : forall (q : bool) (s u : R), (if q then (Some s : RX) else Some u) = Some (if q then s else u)) by (intros [] s u; reflexivity).
    rewrite !K. destruct (IH (if Rltb (fst p) a then fst p else a) (if Rltb b (fst p) then fst p else b) (if Rltb (snd p) c then snd p else c) (if Rltb d (snd p) then snd p else d)) as (x0 & x1 & y0 & y1 & E & H1 & H2 & H3 & H4).
    exists x0, x1, y0, y1. split; [exact E|].
    assert (Q : forall (f : pt -> R) (g : bool) z u, (z = (if g then f p else u) \/ exists w, In w t /\ z = f (loc w)) -> z = u \/ exists w, In w (v :: t) /\ z = f (loc w)).
    { intros f g z u [W|(w & W1 & W2)]; [destruct g; [right; exists v; cbn; auto|auto]|right; exists w; cbn; auto]. }
    split; [eapply (Q fst); exact H1|]. split; [eapply (Q fst); exact H2|]. split; [eapply (Q snd); exact H3|eapply (Q snd); exact H4].
Qed.
Lemma dblmax_big : 10 ^ 300 <= IZR ((2 ^ 53 - 1) * 2 ^ 971).
Proof.
  replace (10 ^ 300)%R with (IZR (10 ^ 300)).
  - apply IZR_le. vm_compute. discriminate.
  - symmetry. rewrite pow_IZR. reflexivity.
Qed.
Lemma super_frame (vs : list (tvert RX)) lx hx ly hy : Forall real_vert vs -> moderate (map loc vs) -> bounding lx hx ly hy (map loc vs) ->
  exists p0 p1 p2, frame lx hx ly hy = [p0; p1; p2] /\ super_vertices vs =
    (mkTV (Some (fst p0) : RX) (Some (snd p0) : RX) "super1"%string, mkTV (Some (fst p1) : RX) (Some (snd p1) : RX) "super2"%string,
     mkTV (Some (fst p2) : RX) (Some (snd p2) : RX) "super3"%string).
Proof.
  intros Hr Hm (Hb & (pa & Ia & Ea) & (pb & Ib & Eb) & (pc & Ic & Ec) & (pd & Id & Ed)).
  do 3 eexists. split; [reflexivity|]. unfold super_vertices, tri_bounds.
  assert (DM : exists M, (fdblmax : RX) = Some M /\ 10 ^ 300 <= M) by (eexists; split; [reflexivity|exact dblmax_big]). destruct DM as (M & -> & DB). rewrite rx_opp.
  destruct (bounds_fold Hr M (- M) M (- M)) as (x0 & x1 & y0 & y1 & E & B1 & B2 & B3 & B4 & B). 
  destruct (bounds_attained Hr M (- M) M (- M)) as (x0' & x1' & y0' & y1' & E' & A1 & A2 & A3 & A4).
  assert (EQ := eq_trans (eq_sym E) E'). injection EQ as <- <- <- <-. rewrite E. clear E E'.
  assert (Hin : forall p, In p (map loc vs) -> x0 <= fst p <= x1 /\ y0 <= snd p <= y1).
  { intros p Hp. apply in_map_iff in Hp. destruct Hp as (v & <- & Hv). apply B, Hv. }
  assert (Small : forall p, In p (map loc vs) -> - M <= fst p <= M /\ - M <= snd p <= M).
  { intros p Hp. destruct (Hm p Hp) as [Z1 Z2]. assert (Y1 := Rle_abs (fst p)). assert (Y2 := Rle_abs (- fst p)). assert (Y3 := Rle_abs (snd p)). assert (Y4 := Rle_abs (- snd p)).
    rewrite Rabs_Ropp in Y2, Y4. lra. }
  assert (X0 : x0 = lx).
  { apply Rle_antisym; [rewrite <- Ea; apply Hin, Ia|]. destruct A1 as [->|(v & Hv & ->)]; [rewrite <- Ea; apply Small, Ia|]. apply Hb, in_map, Hv. }
  assert (X1 : x1 = hx).
  { apply Rle_antisym; [|rewrite <- Eb; apply Hin, Ib]. destruct A2 as [->|(v & Hv & ->)]; [rewrite <- Eb; apply Small, Ib|]. apply Hb, in_map, Hv. }
  assert (Y0 : y0 = ly).
  { apply Rle_antisym; [rewrite <- Ec; apply Hin, Ic|]. destruct A3 as [->|(v & Hv & ->)]; [rewrite <- Ec; apply Small, Ic|]. apply Hb, in_map, Hv. }
  assert (Y1 : y1 = hy).
  { apply Rle_antisym; [|rewrite <- Ed; apply Hin, Id]. destruct A4 as [->|(v & Hv & ->)]; [rewrite <- Ed; apply Small, Id|]. apply Hb, in_map, Hv. }
  subst x0 x1 y0 y1. repeat first [rewrite rx_ofZ | rewrite rx_sub | rewrite rx_add | rewrite rx_div by lra]. cbn [fst snd].
  replace (lx - 10 + (ly - 10) - (hy + 10)) with (lx - 10 - (hy - ly + 20)) by ring. replace (hx + 10 + (hy + 10) - (ly - 10)) with (hx + 10 + (hy - ly + 20)) by ring.
  replace ((lx - 10 + (hx + 10)) / 2) with ((lx + hx) / 2) by field. replace (hx + 10 - (lx - 10)) with (hx - lx + 20) by ring. reflexivity.
Qed.
Lemma mk_loc (p : pt) id : loc (mkTV (Some (fst p) : RX) (Some (snd p) : RX) id) = p.
Proof. destruct p. reflexivity. Qed.
(** the final filter *)
Lemma det_abs (t : triangle RX) : real_vert (ta t) -> real_vert (tb t) -> real_vert (tc t) -> exists s, 0 <= s /\ t_square t = (Some s : RX).
Proof.
  intros [Ax Ay] [Bx By] [Cx Cy]. unfold t_square. rewrite Ax, Ay, Bx, By, Cx, Cy. unfold det3.
  repeat first [rewrite rx_f1 | rewrite rx_mul | rewrite rx_sub | rewrite rx_add | rewrite rx_abs | rewrite rx_lit by lra]. eexists. split; [|reflexivity].
  apply Rmult_le_pos; [|apply Rabs_pos]. lra.
Qed.
Lemma sin_ok (s : R) (a b c d : tvert RX) : 0 <= s -> real_vert a -> real_vert b -> real_vert c -> real_vert d -> loc a <> loc b -> loc c <> loc d ->
  ((fofZ 2 *! (Some s : RX) /! (te_len (mk_edge a b) *! te_len (mk_edge c d))) <! fofZ (-1)) = false.
Proof.
  intros Hs Ra Rb Rc Rd N1 N2. rewrite !te_len_real by assumption.
  assert (Pos : forall p q : pt, p <> q -> 0 < dist2 p q).
  { intros [px py] [qx qy] N. unfold dist2. cbn [fst snd]. apply sqrt_lt_R0.
    assert (A := Rle_0_sqr (px - qx)). assert (B := Rle_0_sqr (py - qy)). unfold Rsqr in *.
    destruct (Rtotal_order px qx) as [L|[L|L]]; [assert (0 < (px - qx) * (px - qx)) by (apply sq_pos; lra); lra| |assert (0 < (px - qx) * (px - qx)) by (apply sq_pos; lra); lra].
    destruct (Rtotal_order py qy) as [K|[K|K]]; [assert (0 < (py - qy) * (py - qy)) by (apply sq_pos; lra); lra|subst; congruence|assert (0 < (py - qy) * (py - qy)) by (apply sq_pos; lra); lra]. }
  assert (P1 := Pos _ _ N1). assert (P2 := Pos _ _ N2). assert (P3 := Rmult_lt_0_compat _ _ P1 P2).
  rewrite !rx_ofZ, !rx_mul, rx_div by lra. rewrite rx_ltb. apply Rltb_false.
  assert (0 <= 2 * s / (dist2 (loc a) (loc b) * dist2 (loc c) (loc d))); [|lra].
  apply Rmult_le_pos; [lra|]. apply Rlt_le, Rinv_0_lt_compat, P3.
Qed.
Lemma dropped_spec V vs v0 v1 v2 m t : tidy V -> V = v0 :: v1 :: v2 :: vs -> ~ In v0 vs -> ~ In v1 vs -> ~ In v2 vs -> incl (corners t) V -> distinct3 (ta t) (tb t) (tc t) ->
  (tri_dropped v0 v1 v2 (Some m : RX) t = false <-> incl (corners t) vs /\
    dist2 (loc (ta t)) (loc (tb t)) <= m /\ dist2 (loc (tb t)) (loc (tc t)) <= m /\ dist2 (loc (ta t)) (loc (tc t)) <= m).
Proof.
  intros HV EV N0 N1 N2 Hi (M1 & M2 & M3).
  assert (Va : In (ta t) V) by (apply Hi; cbn; auto). assert (Vb : In (tb t) V) by (apply Hi; cbn; auto). assert (Vc : In (tc t) V) by (apply Hi; cbn; auto).
  assert (Ra := tv_real _ HV Va). assert (Rb := tv_real _ HV Vb). assert (Rc := tv_real _ HV Vc).
  assert (LN : forall x y, In x V -> In y V -> x <> y -> loc x <> loc y) by (intros x y X Y N E; apply N; apply HV; auto).
  assert (Sup : forall x, In x [v0; v1; v2] -> In x V) by (subst V; intros x [<-|[<-|[<-|[]]]]; cbn; auto).
  assert (Eq : forall x y, In x V -> In y [v0; v1; v2] -> (tv_eqb x y = false <-> x <> y)).
  { intros x y X Y. rewrite <- not_true_iff_false. rewrite (@tv_eqb_key V _ _ HV X (Sup _ Y)). tauto. }
  unfold tri_dropped. cbv zeta. destruct (det_abs t Ra Rb Rc) as (s & Hs & Es). unfold sin_a, sin_b, sin_c. rewrite Es. unfold t_ab, t_bc, t_ac.
  rewrite !sin_ok by auto. rewrite !te_len_real by assumption. rewrite !rx_ltb, !orb_false_iff, !Rltb_false.
  rewrite !Eq by (cbn; auto). assert (In3 : forall x, In x V -> (In x vs <-> x <> v0 /\ x <> v1 /\ x <> v2)).
  { intros x X. subst V. split; [intros Y; repeat split; intros ->; contradiction|]. intros (Y1 & Y2 & Y3). destruct X as [X|[X|[X|X]]]; congruence. }
  assert (Incl : incl (corners t) vs <-> In (ta t) vs /\ In (tb t) vs /\ In (tc t) vs).
  { split; [intros H; repeat split; apply H; cbn; auto|]. intros (A & B & C) x [<-|[<-|[<-|[]]]]; assumption. }
  rewrite Incl, !In3 by assumption. tauto.
Qed.
Theorem triangulate_delaunay {SO : Sorter} (vs : list (tvert RX)) (m lx hx ly hy : R) : proper vs -> (3 <= List.length vs)%nat -> moderate (map loc vs) ->
  bounding lx hx ly hy (map loc vs) -> general (frame lx hx ly hy ++ map loc vs) ->
  exists ts, triangulate_vertices vs (Some m : RX) = Ok ts /\ NoDup ts /\
    (forall t t', In t ts -> In t' ts -> (forall x, In x (corners t) <-> In x (corners t')) -> t = t') /\
    (forall t, In t ts -> incl (corners t) vs /\ NoDup (corners t)) /\
    forall a b c, In a vs -> In b vs -> In c vs ->
      ((exists t, In t ts /\ forall x, In x (corners t) <-> x = a \/ x = b \/ x = c) /\ a <> b /\ b <> c /\ a <> c <->
       delaunay (frame lx hx ly hy ++ map loc vs) (loc a) (loc b) (loc c) /\
       dist2 (loc a) (loc b) <= m /\ dist2 (loc b) (loc c) <= m /\ dist2 (loc a) (loc c) <= m).
Proof.
  intros Hp Hlen Hm Hb Hg. assert (Hne : vs <> []) by (intros ->; cbn in Hlen; lia).
  assert (Hr : Forall real_vert vs) by apply Hp.
  destruct (super_frame Hr Hm Hb) as (p0 & p1 & p2 & Ef & Es).
  set (v0 := mkTV (Some (fst p0) : RX) (Some (snd p0) : RX) "super1"%string) in *. set (v1 := mkTV (Some (fst p1) : RX) (Some (snd p1) : RX) "super2"%string) in *.
  set (v2 := mkTV (Some (fst p2) : RX) (Some (snd p2) : RX) "super3"%string) in *.
  set (V := v0 :: v1 :: v2 :: vs).
  assert (HV : tidy V) by (apply proper_tidy; auto).
  assert (EV : map loc V = frame lx hx ly hy ++ map loc vs).
  { rewrite Ef. unfold V, v0, v1, v2. cbn [map app]. rewrite !mk_loc. reflexivity. }
  rewrite <- EV in Hg |- *.
  assert (N012 : distinct3 v0 v1 v2) by (repeat split; discriminate).
  assert (Res : forall v, In v vs -> ~ In (tv_id v) reserved) by apply Hp.
  assert (Nsup : forall v, In v vs -> ~ In v [v0; v1; v2]).
  { intros v Hv [<-|[<-|[<-|[]]]]; apply (Res _ Hv); cbn; auto. }
  unfold triangulate_vertices. destruct (Nat.ltb_spec (List.length vs) 3) as [L|L]; [lia|]. rewrite Es. fold v0 v1 v2.
  fold (insert_all (Ok [mkT v0 v1 v2]) (v0 :: v1 :: v2 :: vs)).
  assert (Start : insert_all (Ok [mkT v0 v1 v2]) (v0 :: v1 :: v2 :: vs) = insert_all (Ok [mkT v0 v1 v2]) vs).
  { unfold insert_all. cbn [fold_left bind]. rewrite (@own_corner SO v0 v1 v2 v0) by (cbn; auto). cbn [bind]. rewrite (@own_corner SO v0 v1 v2 v1) by (cbn; auto). cbn [bind].
    rewrite (@own_corner SO v0 v1 v2 v2) by (cbn; auto). reflexivity. }
  rewrite Start.
  assert (Hsup : forall a b v, In a V -> In b V -> In v V -> 0 < ar a b v -> exists p, In p [v0; v1; v2] /\ 0 < ar a b p).
  { intros a b v Ha Hb' Hv H. destruct Hv as [Hv|[Hv|[Hv|Hv]]]; [exists v; subst v; cbn; auto|exists v; subst v; cbn; auto|exists v; subst v; cbn; auto|].
    destruct Hb as (Hbox & _). destruct (Hbox (loc v)) as [[X1 X2] [Y1 Y2]]; [apply in_map, Hv|].
    assert (Lp : 0 < hx - lx + 20 + 2 * (hy - ly + 20)) by lra.
    unfold frame in Ef. injection Ef as <- <- <-. cbn [fst snd] in v0, v1, v2.
    apply (@hull_sup v0 v1 v2 v ((hx + 10 + (hy - ly + 20) - fst (loc v) - (snd (loc v) - (ly - 10))) / (hx - lx + 20 + 2 * (hy - ly + 20)))
       ((fst (loc v) - (lx - 10 - (hy - ly + 20)) - (snd (loc v) - (ly - 10))) / (hx - lx + 20 + 2 * (hy - ly + 20)))
       (2 * (snd (loc v) - (ly - 10)) / (hx - lx + 20 + 2 * (hy - ly + 20)))); auto;
      try (apply Rmult_le_pos; [lra|apply Rlt_le, Rinv_0_lt_compat, Lp]); unfold loc at 3 4 5 || idtac; cbn [loc v0 v1 v2 fst snd tv_x tv_y rval]; field; lra. }
  destruct (@insert_run V HV Hg SO [v0; v1; v2] Hsup vs [v0; v1; v2] [mkT v0 v1 v2]) as (T & ET & HI).
  { intros x [<-|[<-|[<-|[]]]]; cbn; auto. } { apply incl_refl. } { apply base_inv, N012. } { intros x Hx. cbn. auto. }
  { eapply NoDup_map_inv. apply Hp. } { exact Nsup. }
  assert (HI' : Inv V T).
  { eapply Inv_ext; [|exact HI]. intros x. rewrite in_app_iff, <- in_rev. unfold V. cbn. tauto. }
  clear HI. rename HI' into HI. rewrite ET. cbn [bind].
  rewrite (sort_res_swo (vs_swo Hr)). cbn [bind].
  assert (GT : forall t, In t T -> incl (corners t) V /\ distinct3 (ta t) (tb t) (tc t)).
  { intros t Ht. apply (D_good (V := V) (S := V)); [apply incl_refl|apply HI, Ht]. }
  set (fl := filter (fun t => negb (tri_dropped v0 v1 v2 (Some m : RX) t)) T).
  assert (W : strict_weak_on t_ltb fl).
  { eapply tris_swo; [exact HV|]. apply Forall_forall. intros t Ht. apply filter_In in Ht. apply (GT t), Ht. }
  rewrite (sort_res_swo W). exists (ssort t_ltb fl). split; [reflexivity|].
  assert (Pm := ssort_perm W).
  assert (Mem : forall t, In t (ssort t_ltb fl) <-> In t T /\ incl (corners t) vs /\ dist2 (loc (ta t)) (loc (tb t)) <= m /\ dist2 (loc (tb t)) (loc (tc t)) <= m /\ dist2 (loc (ta t)) (loc (tc t)) <= m).
  { intros t. assert (Q : In t (ssort t_ltb fl) <-> In t fl) by (split; apply Permutation_in; [symmetry|]; exact Pm). rewrite Q. unfold fl. rewrite filter_In, negb_true_iff.
    assert (N0 : ~ In v0 vs) by (intros X; apply (Nsup _ X); cbn; auto). assert (N1 : ~ In v1 vs) by (intros X; apply (Nsup _ X); cbn; auto). assert (N2 : ~ In v2 vs) by (intros X; apply (Nsup _ X); cbn; auto).
    split; intros [A B]; (split; [exact A|]); apply (@dropped_spec V vs v0 v1 v2 m t HV eq_refl N0 N1 N2 (proj1 (GT t A)) (proj2 (GT t A))); exact B. }
  split; [eapply Permutation_NoDup; [exact Pm|apply NoDup_filter, HI]|].
  split; [intros t t' A B; apply HI; [apply Mem in A|apply Mem in B]; tauto|].
  split.
  { intros t A. apply Mem in A. destruct A as (A & B & _). split; [exact B|]. destruct (GT t A) as [_ (M1 & M2 & M3)]. unfold corners. repeat constructor; cbn; intuition congruence. }
  intros a b c Ha Hb' Hc. assert (Va : In a V) by (cbn; auto). assert (Vb : In b V) by (cbn; auto). assert (Vc : In c V) by (cbn; auto).
  assert (Sym : forall p q : pt, dist2 p q = dist2 q p) by (intros p q; unfold dist2; f_equal; ring).
  rewrite <- (D_delaunay HV Hg a b c Va Vb Vc).
  split.
  - intros ((t & A & B) & N1 & N2 & N3). apply Mem in A. destruct A as (A & _ & E1 & E2 & E3).
    assert (Nt := proj2 (GT t A)). assert (N : distinct3 a b c) by (repeat split; auto).
    split; [apply (D_tri V B Nt N); apply HI, A|].
    destruct (tri_perm B Nt N) as [(-> & -> & ->)|[(-> & -> & ->)|[(-> & -> & ->)|[(-> & -> & ->)|[(-> & -> & ->)|(-> & -> & ->)]]]]]; rewrite ?(Sym (loc (tb t)) (loc (ta t))), ?(Sym (loc (tc t)) (loc (tb t))), ?(Sym (loc (tc t)) (loc (ta t))); auto.
  - intros (K & E1 & E2 & E3). assert (N : distinct3 a b c) by apply K. split; [|exact N].
    destruct HI as (I1 & I2 & _). destruct (I2 a b c K) as (t & Ht & Q). exists t. split; [|exact Q]. apply Mem. split; [exact Ht|].
    split; [intros x Hx; apply Q in Hx; destruct Hx as [->|[->| ->]]; assumption|]. assert (Nt := proj2 (GT t Ht)).
    destruct (tri_perm Q Nt N) as [(-> & -> & ->)|[(-> & -> & ->)|[(-> & -> & ->)|[(-> & -> & ->)|[(-> & -> & ->)|(-> & -> & ->)]]]]]; rewrite ?(Sym (loc (tb t)) (loc (ta t))), ?(Sym (loc (tc t)) (loc (tb t))), ?(Sym (loc (tc t)) (loc (ta t))) in *; auto.
Qed.
