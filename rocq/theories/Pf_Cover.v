(** Delaunay triangles do not overlap and leave no gaps (C59). *)
From Coq Require Import Reals Lra Lia List Bool Classical.
From Verif Require Import Lib NumReal LibR Triangulation Spec_Tri Pf_Tri Spec_Del Pf_Del.
Import ListNotations.
Set Implicit Arguments.
Local Open Scope R_scope.

(** power of a point *)
Definition power (o a p : pt) : R := sqd o p - sqd o a.
Lemma sqd_affine (o o' a a' p q r : pt) k0 k1 k2 : k0 + k1 + k2 = 1 ->
  power o a (k0 * fst p + k1 * fst q + k2 * fst r, k0 * snd p + k1 * snd q + k2 * snd r) -
  power o' a' (k0 * fst p + k1 * fst q + k2 * fst r, k0 * snd p + k1 * snd q + k2 * snd r) =
  k0 * (power o a p - power o' a' p) + k1 * (power o a q - power o' a' q) + k2 * (power o a r - power o' a' r).
Proof.
  intros H. unfold power, sqd. cbn [fst snd]. replace k2 with (1 - k0 - k1) by lra. ring.
Qed.
Lemma centre_unique o o' a b c : area2 a b c <> 0 -> centre_of o a b c -> centre_of o' a b c -> o = o'.
Proof.
  intros H [E1 E2] [F1 F2]. destruct o as [ox oy], o' as [px py], a as [ax ay], b as [bx by_], c as [cx cy]. unfold area2, sqd in *. cbn [fst snd] in *.
  assert (K1 : (ox - px) * (bx - ax) + (oy - py) * (by_ - ay) = 0) by lra.
  assert (K2 : (ox - px) * (cx - ax) + (oy - py) * (cy - ay) = 0) by lra.
  assert (Z1 : (ox - px) * ((bx - ax) * (cy - ay) - (by_ - ay) * (cx - ax)) = 0).
  { replace ((ox - px) * ((bx - ax) * (cy - ay) - (by_ - ay) * (cx - ax))) with
      (((ox - px) * (bx - ax) + (oy - py) * (by_ - ay)) * (cy - ay) - ((ox - px) * (cx - ax) + (oy - py) * (cy - ay)) * (by_ - ay)) by ring. rewrite K1, K2. ring. }
  assert (Z2 : (oy - py) * ((bx - ax) * (cy - ay) - (by_ - ay) * (cx - ax)) = 0).
  { replace ((oy - py) * ((bx - ax) * (cy - ay) - (by_ - ay) * (cx - ax))) with
      (((ox - px) * (cx - ax) + (oy - py) * (cy - ay)) * (bx - ax) - ((ox - px) * (bx - ax) + (oy - py) * (by_ - ay)) * (cx - ax)) by ring. rewrite K1, K2. ring. }
  apply Rmult_integral in Z1. apply Rmult_integral in Z2. destruct Z1, Z2; try contradiction. f_equal; lra.
Qed.
Lemma delaunay_power V a b c o : general V -> delaunay V a b c -> centre_of o a b c ->
  (forall v, In v V -> 0 <= power o a v) /\ (forall v, In v V -> power o a v = 0 -> v = a \/ v = b \/ v = c).
Proof.
  intros HG (Ha & Hb & Hc & N1 & N2 & N3 & H) Ho. assert (A : area2 a b c <> 0) by (apply HG; auto).
  assert (K : forall v, In v V -> (v = a \/ v = b \/ v = c) \/ 0 < power o a v).
  { intros v Hv. destruct (classic (v = a)); [auto|]. destruct (classic (v = b)); [auto|]. destruct (classic (v = c)); [auto|].
    right. destruct (H v Hv) as (o' & Ho' & L); auto. rewrite (centre_unique A Ho Ho'). unfold power. lra. }
  destruct Ho as [E1 E2]. split; intros v Hv.
  - destruct (K v Hv) as [[->|[->| ->]]|L]; unfold power in *; lra.
  - intros Z. destruct (K v Hv) as [L|L]; [exact L|lra].
Qed.
Theorem delaunay_disjoint V a b c d e f q : general V -> delaunay V a b c -> delaunay V d e f -> inside a b c q -> inside d e f q ->
  forall x, x = a \/ x = b \/ x = c <-> x = d \/ x = e \/ x = f.
Proof.
  assert (Half : forall a b c d e f q, general V -> delaunay V a b c -> delaunay V d e f -> inside a b c q -> inside d e f q ->
     forall x, x = a \/ x = b \/ x = c -> x = d \/ x = e \/ x = f).
  { clear. intros a b c d e f q HG H1 H2 (k0 & k1 & k2 & P0 & P1 & P2 & Ek & Eq) (l0 & l1 & l2 & Q0 & Q1 & Q2 & El & Fq).
    assert (A1 : area2 a b c <> 0) by (destruct H1 as (? & ? & ? & ? & ? & ? & _); apply HG; auto).
    assert (A2 : area2 d e f <> 0) by (destruct H2 as (? & ? & ? & ? & ? & ? & _); apply HG; auto).
    destruct (centre_exists A1) as (o1 & O1). destruct (centre_exists A2) as (o2 & O2).
    destruct (delaunay_power HG H1 O1) as [N1 Z1]. destruct (delaunay_power HG H2 O2) as [N2 Z2].
    assert (S1 := sqd_affine o1 o2 a d a b c Ek). assert (S2 := sqd_affine o1 o2 a d d e f El). rewrite <- Eq in S1. rewrite <- Fq in S2.
    assert (Oa : power o1 a a = 0 /\ power o1 a b = 0 /\ power o1 a c = 0) by (destruct O1 as [X Y]; unfold power; lra).
    assert (Od : power o2 d d = 0 /\ power o2 d e = 0 /\ power o2 d f = 0) by (destruct O2 as [X Y]; unfold power; lra).
    destruct Oa as (Oa & Ob & Oc), Od as (Od & Oe & Of). rewrite Oa, Ob, Oc in S1. rewrite Od, Oe, Of in S2.
    destruct H1 as (Ia & Ib & Ic & _). destruct H2 as (Id & Ie & If & _).
    assert (L1 : forall k x, 0 < k -> 0 <= x -> 0 <= k * x) by (intros; apply Rmult_le_pos; lra).
    assert (M0 := L1 _ _ P0 (N2 a Ia)). assert (M1 := L1 _ _ P1 (N2 b Ib)). assert (M2 := L1 _ _ P2 (N2 c Ic)).
    assert (M3 := L1 _ _ Q0 (N1 d Id)). assert (M4 := L1 _ _ Q1 (N1 e Ie)). assert (M5 := L1 _ _ Q2 (N1 f If)).
    assert (Z : forall k x, 0 < k -> k * x = 0 -> x = 0) by (intros k x K X; apply Rmult_integral in X; destruct X; [lra|assumption]).
    assert (Ra : power o2 d a = 0) by (apply (Z k0); [exact P0|lra]). assert (Rb : power o2 d b = 0) by (apply (Z k1); [exact P1|lra]). assert (Rc : power o2 d c = 0) by (apply (Z k2); [exact P2|lra]).
    intros x [->|[->| ->]]; apply Z2; assumption. }
  intros HG H1 H2 I1 I2 x. split; eapply Half; eauto.
Qed.

(** ** no gaps *)
Definition nrm (p : pt) : R := fst p * fst p + snd p * snd p.
Definition mix (k0 k1 k2 : R) (a b c : pt) : pt := (k0 * fst a + k1 * fst b + k2 * fst c, k0 * snd a + k1 * snd b + k2 * snd c).
(** height at [q] of the plane through the three lifted points *)
Definition hgt (q : pt) (t : pt * pt * pt) : R :=
  let '(a, b, c) := t in (area2 q b c * nrm a + area2 a q c * nrm b + area2 a b q * nrm c) / area2 a b c.
Lemma mix_area k0 k1 k2 a b c : k0 + k1 + k2 = 1 ->
  area2 (mix k0 k1 k2 a b c) b c = k0 * area2 a b c /\ area2 a (mix k0 k1 k2 a b c) c = k1 * area2 a b c /\ area2 a b (mix k0 k1 k2 a b c) = k2 * area2 a b c.
Proof. intros H. unfold area2, mix. cbn [fst snd]. replace k0 with (1 - k1 - k2) by lra. repeat split; ring. Qed.
Lemma hgt_mix k0 k1 k2 a b c : k0 + k1 + k2 = 1 -> area2 a b c <> 0 -> hgt (mix k0 k1 k2 a b c) (a, b, c) = k0 * nrm a + k1 * nrm b + k2 * nrm c.
Proof. intros H A. unfold hgt. destruct (mix_area a b c H) as (-> & -> & ->). field. exact A. Qed.
Lemma mix_coords a b c v : area2 a b c <> 0 -> exists l0 l1 l2, l0 + l1 + l2 = 1 /\ v = mix l0 l1 l2 a b c.
Proof.
  intros A. exists (area2 v b c / area2 a b c), (area2 a v c / area2 a b c), (area2 a b v / area2 a b c). destruct a as [ax ay], b as [bx by_], c as [cx cy], v as [vx vy].
  unfold mix, area2 in *. cbn [fst snd] in *. split; [field; exact A|]. f_equal; field; exact A.
Qed.
Lemma power_mix o a b c l0 l1 l2 : l0 + l1 + l2 = 1 -> centre_of o a b c ->
  nrm (mix l0 l1 l2 a b c) - (l0 * nrm a + l1 * nrm b + l2 * nrm c) = power o a (mix l0 l1 l2 a b c).
Proof.
  intros H [E1 E2]. assert (F1 : sqd o a - sqd o b = 0) by lra. assert (F2 : sqd o a - sqd o c = 0) by lra.
  assert (K : nrm (mix l0 l1 l2 a b c) - (l0 * nrm a + l1 * nrm b + l2 * nrm c) = power o a (mix l0 l1 l2 a b c) + l1 * (sqd o a - sqd o b) + l2 * (sqd o a - sqd o c)).
  { replace l0 with (1 - l1 - l2) by lra. unfold nrm, power, sqd, mix. cbn [fst snd]. ring. }
  rewrite K, F1, F2. ring.
Qed.
Lemma min_ex A (f : A -> R) (Q : A -> Prop) L : (exists x, In x L /\ Q x) -> exists x, In x L /\ Q x /\ forall y, In y L -> Q y -> f x <= f y.
Proof.
  induction L as [|z r IH]; intros (x & Hx & Qx); [destruct Hx|].
  destruct (classic (exists x, In x r /\ Q x)) as [E|E].
  - destruct (IH E) as (m & Hm & Qm & Mm). destruct (classic (Q z)) as [Qz|Qz].
    + destruct (Rle_dec (f z) (f m)) as [L|L].
      * exists z. split; [left; reflexivity|]. split; [exact Qz|]. intros y [<-|Hy] Qy; [lra|]. assert (K := Mm y Hy Qy). lra.
      * exists m. split; [right; exact Hm|]. split; [exact Qm|]. intros y [<-|Hy] Qy; [lra|]. apply Mm; assumption.
    + exists m. split; [right; exact Hm|]. split; [exact Qm|]. intros y [<-|Hy] Qy; [contradiction|]. apply Mm; assumption.
  - destruct Hx as [<-|Hx]; [|exfalso; apply E; eauto]. exists z. split; [left; reflexivity|]. split; [exact Qx|].
    intros y [<-|Hy] Qy; [lra|]. exfalso. apply E. eauto.
Qed.
Lemma ratio k0 l0 k l : 0 < l0 -> 0 < k -> (0 < l -> k0 / l0 <= k / l) -> 0 < k0 -> 0 <= k - k0 / l0 * l.
Proof.
  intros L0 K H K0. assert (T : 0 < k0 / l0) by (apply Rdiv_lt_0_compat; assumption). destruct (Rlt_dec 0 l) as [L|L].
  - assert (E := H L). apply Rmult_le_compat_r with (r := l) in E; [|lra]. replace (k / l * l) with k in E by (field; lra). lra.
  - assert (0 <= k0 / l0 * - l) by (apply Rmult_le_pos; lra). lra.
Qed.
(** replacing one corner *)
Lemma pivot k0 k1 k2 l0 l1 l2 : 0 < k0 -> 0 < k1 -> 0 < k2 -> k0 + k1 + k2 = 1 -> l0 + l1 + l2 = 1 ->
  exists th, 0 < th /\ 0 <= k0 - th * l0 /\ 0 <= k1 - th * l1 /\ 0 <= k2 - th * l2 /\ (k0 - th * l0 = 0 \/ k1 - th * l1 = 0 \/ k2 - th * l2 = 0).
Proof.
  intros K0 K1 K2 Ek El.
  destruct (@min_ex (R * R) (fun x => fst x / snd x) (fun x => 0 < snd x) [(k0, l0); (k1, l1); (k2, l2)]) as ([k l] & Hin & Hl & Hm).
  { destruct (Rlt_dec 0 l0); [exists (k0, l0); cbn; auto|]. destruct (Rlt_dec 0 l1); [exists (k1, l1); cbn; auto|]. exists (k2, l2). cbn. split; [auto|lra]. }
  cbn [fst snd] in *. exists (k / l).
  assert (H0 : 0 < l0 -> k / l <= k0 / l0) by (intros Q; exact (Hm (k0, l0) ltac:(cbn; auto) Q)).
  assert (H1 : 0 < l1 -> k / l <= k1 / l1) by (intros Q; exact (Hm (k1, l1) ltac:(cbn; auto) Q)).
  assert (H2 : 0 < l2 -> k / l <= k2 / l2) by (intros Q; exact (Hm (k2, l2) ltac:(cbn; auto) Q)).
  assert (K : 0 < k) by (destruct Hin as [E|[E|[E|[]]]]; injection E as <- <-; assumption).
  split; [apply Rdiv_lt_0_compat; assumption|]. split; [apply ratio; assumption|]. split; [apply ratio; assumption|]. split; [apply ratio; assumption|].
  destruct Hin as [E|[E|[E|[]]]]; injection E as <- <-; [left|right; left|right; right]; field; lra.
Qed.
Theorem delaunay_cover V q : general V -> (exists x y z, In x V /\ In y V /\ In z V /\ area2 x y z <> 0 /\ inside x y z q) ->
  (forall a b, In a V -> In b V -> a <> b -> area2 a b q <> 0) -> exists a b c, delaunay V a b c /\ inside a b c q.
Proof.
  intros HG (x & y & z & Hx & Hy & Hz & A0 & I0) Off.
  set (L := list_prod (list_prod V V) V).
  assert (InL : forall a b c, In (a, b, c) L <-> In a V /\ In b V /\ In c V) by (intros a b c; unfold L; rewrite !in_prod_iff; tauto).
  destruct (@min_ex _ (hgt q) (fun t => let '(a, b, c) := t in area2 a b c <> 0 /\ inside a b c q) L) as ([[a b] c] & Hin & [A I] & Hmin).
  { exists (x, y, z). rewrite InL. auto. }
  apply InL in Hin. destruct Hin as (Ha & Hb & Hc). exists a, b, c. split; [|exact I].
  assert (N1 : a <> b) by (intros ->; apply A; unfold area2; ring). assert (N2 : b <> c) by (intros ->; apply A; unfold area2; ring). assert (N3 : a <> c) by (intros ->; apply A; unfold area2; ring).
  repeat (split; [assumption|]). intros v Hv M1 M2 M3. destruct (centre_exists A) as (o & Ho). exists o. split; [exact Ho|].
  assert (G2 := proj2 HG a b c v o Ha Hb Hc Hv N1 N2 N3 M1 M2 M3 Ho). destruct G2 as [G|G]; [exact G|]. exfalso.
  assert (Neg : power o a v < 0).
  { unfold power. destruct (Rlt_dec (sqd o v) (sqd o a)) as [W|W]; [lra|]. assert (X := sq_pos A). assert (0 <= area2 a b c * area2 a b c * (sqd o v - sqd o a)) by (apply Rmult_le_pos; lra). lra. }
  destruct I as (k0 & k1 & k2 & K0 & K1 & K2 & Ek & Eq). fold (mix k0 k1 k2 a b c) in Eq.
  destruct (mix_coords v A) as (l0 & l1 & l2 & El & Ev).
  destruct (pivot K0 K1 K2 Ek El) as (th & Ht & B0 & B1 & B2 & Bz).
  assert (Pw : nrm v - (l0 * nrm a + l1 * nrm b + l2 * nrm c) < 0) by (rewrite Ev at 1; rewrite (power_mix El Ho), <- Ev; exact Neg).
  assert (Drop : th * (nrm v - (l0 * nrm a + l1 * nrm b + l2 * nrm c)) < 0).
  { assert (0 < th * - (nrm v - (l0 * nrm a + l1 * nrm b + l2 * nrm c))) by (apply Rmult_lt_0_compat; lra). lra. }
  assert (Hq : hgt q (a, b, c) = k0 * nrm a + k1 * nrm b + k2 * nrm c) by (rewrite Eq; apply hgt_mix; assumption).
  assert (Fin : forall (d e f : pt) m0 m1 m2, In d V -> In e V -> In f V -> d <> e -> e <> f -> d <> f -> 0 <= m0 -> 0 <= m1 -> 0 <= m2 -> m0 + m1 + m2 = 1 -> q = mix m0 m1 m2 d e f ->
     m0 * nrm d + m1 * nrm e + m2 * nrm f < k0 * nrm a + k1 * nrm b + k2 * nrm c -> False).
  { intros d e f m0 m1 m2 Hd He Hf Q1 Q2 Q3 P0 P1 P2 Em E Lt. assert (A' : area2 d e f <> 0) by (apply HG; auto).
    destruct (mix_area d e f Em) as (W0 & W1 & W2). rewrite <- E in W0, W1, W2.
    assert (Z0 : m0 <> 0). { intros ->. apply (Off e f He Hf Q2). replace (area2 e f q) with (area2 q e f) by (unfold area2; ring). rewrite W0. ring. }
    assert (Z1 : m1 <> 0). { intros ->. apply (Off d f Hd Hf Q3). replace (area2 d f q) with (- area2 d q f) by (unfold area2; ring). rewrite W1. ring. }
    assert (Z2 : m2 <> 0). { intros ->. apply (Off d e Hd He Q1). rewrite W2. ring. }
    assert (K := Hmin (d, e, f)). cbv beta iota in K. rewrite Hq in K. rewrite E in K at 2. rewrite (hgt_mix Em A') in K.
    assert (k0 * nrm a + k1 * nrm b + k2 * nrm c <= m0 * nrm d + m1 * nrm e + m2 * nrm f); [|lra]. apply K; [apply InL; auto|]. split; [exact A'|].
    exists m0, m1, m2. repeat (split; [lra|]). exact E. }
  assert (Qx : q = (th * fst v + (k0 - th * l0) * fst a + (k1 - th * l1) * fst b + (k2 - th * l2) * fst c, th * snd v + (k0 - th * l0) * snd a + (k1 - th * l1) * snd b + (k2 - th * l2) * snd c)).
  { rewrite Eq, Ev. unfold mix. cbn [fst snd]. f_equal; ring. }
  assert (Sum : th + (k0 - th * l0) + (k1 - th * l1) + (k2 - th * l2) = 1) by (replace 1 with (k0 + k1 + k2 + th * (1 - (l0 + l1 + l2))) by (rewrite El; lra); ring).
  assert (Hn : th * nrm v + (k0 - th * l0) * nrm a + (k1 - th * l1) * nrm b + (k2 - th * l2) * nrm c < k0 * nrm a + k1 * nrm b + k2 * nrm c) by lra.
  destruct Bz as [Z|[Z|Z]]; rewrite Z in *.
  - apply (Fin v b c th (k1 - th * l1) (k2 - th * l2)); auto; try lra. rewrite Qx. unfold mix. f_equal; ring.
  - apply (Fin v a c th (k0 - th * l0) (k2 - th * l2)); auto; try lra. rewrite Qx. unfold mix. f_equal; ring.
  - apply (Fin v a b th (k0 - th * l0) (k1 - th * l1)); auto; try lra. rewrite Qx. unfold mix. f_equal; ring.
Qed.

(** ** the output *)
Lemma frame_inside lx hx ly hy q p0 p1 p2 : frame lx hx ly hy = [p0; p1; p2] -> lx <= fst q <= hx -> ly <= snd q <= hy ->
  area2 p0 p1 p2 <> 0 /\ inside p0 p1 p2 q.
Proof.
  intros E X Y. unfold frame in E. injection E as <- <- <-. assert (Lp : 0 < hx - lx + 20 + 2 * (hy - ly + 20)) by lra. set (L := hx - lx + 20 + 2 * (hy - ly + 20)) in *.
  split.
  - assert (0 < L * (L / 2)) by (apply Rmult_lt_0_compat; lra). unfold area2. cbn [fst snd]. intros Z. unfold L in *. lra.
  - exists ((hx + 10 + (hy - ly + 20) - fst q - (snd q - (ly - 10))) / L), ((fst q - (lx - 10 - (hy - ly + 20)) - (snd q - (ly - 10))) / L), (2 * (snd q - (ly - 10)) / L).
    assert (I := Rinv_0_lt_compat _ Lp). split; [apply Rdiv_lt_0_compat; lra|]. split; [apply Rdiv_lt_0_compat; lra|]. split; [apply Rdiv_lt_0_compat; lra|].
    split; [unfold L; field; fold L; lra|]. destruct q as [qx qy]. cbn [fst snd]. f_equal; unfold L; field; fold L; lra.
Qed.
Lemma inside_perm a b c d e f q : (forall x, x = a \/ x = b \/ x = c <-> x = d \/ x = e \/ x = f) -> a <> b -> b <> c -> a <> c -> d <> e -> e <> f -> d <> f ->
  inside a b c q -> inside d e f q.
Proof.
  intros H N1 N2 N3 M1 M2 M3 (k0 & k1 & k2 & K0 & K1 & K2 & Ek & ->).
  destruct (proj1 (H a)) as [->|[->| ->]]; auto; (destruct (proj1 (H b)) as [->|[->| ->]]; auto; try congruence); (destruct (proj1 (H c)) as [->|[->| ->]]; auto; try congruence).
  - exists k0, k1, k2. repeat (split; [lra|]). reflexivity.
  - exists k0, k2, k1. repeat (split; [lra|]). f_equal; ring.
  - exists k1, k0, k2. repeat (split; [lra|]). f_equal; ring.
  - exists k2, k0, k1. repeat (split; [lra|]). f_equal; ring.
  - exists k1, k2, k0. repeat (split; [lra|]). f_equal; ring.
  - exists k2, k1, k0. repeat (split; [lra|]). f_equal; ring.
Qed.

Lemma edges_perm (a b c d e f : pt) m : (forall x, x = a \/ x = b \/ x = c <-> x = d \/ x = e \/ x = f) -> a <> b -> b <> c -> a <> c -> d <> e -> e <> f -> d <> f ->
  dist2 a b <= m /\ dist2 b c <= m /\ dist2 a c <= m -> dist2 d e <= m /\ dist2 e f <= m /\ dist2 d f <= m.
Proof.
  intros H N1 N2 N3 M1 M2 M3 (K0 & K1 & K2). assert (Sym : forall p q : pt, dist2 p q = dist2 q p) by (intros p q; unfold dist2; f_equal; ring).
  destruct (proj1 (H a)) as [->|[->| ->]]; auto; (destruct (proj1 (H b)) as [->|[->| ->]]; auto; try congruence); (destruct (proj1 (H c)) as [->|[->| ->]]; auto; try congruence);
    rewrite ?(Sym e d), ?(Sym f e), ?(Sym f d) in *; auto.
Qed.
Section Out.
Context {SO : Sorter}.
Variables (vs : list (tvert RX)) (m lx hx ly hy : R) (ts : list (triangle RX)).
Hypothesis Hp : proper vs.
Hypothesis Hlen : (3 <= List.length vs)%nat.
Hypothesis Hm : moderate (map loc vs).
Hypothesis Hb : bounding lx hx ly hy (map loc vs).
Hypothesis HG : general (frame lx hx ly hy ++ map loc vs).
Hypothesis HT : triangulate_vertices vs (Some m : RX) = Ok ts.
Let V := frame lx hx ly hy ++ map loc vs.

Lemma out_delaunay t : In t ts -> incl (corners t) vs /\ delaunay V (loc (ta t)) (loc (tb t)) (loc (tc t)) /\
  dist2 (loc (ta t)) (loc (tb t)) <= m /\ dist2 (loc (tb t)) (loc (tc t)) <= m /\ dist2 (loc (ta t)) (loc (tc t)) <= m.
Proof.
  intros Ht. destruct (@triangulate_delaunay SO vs m lx hx ly hy Hp Hlen Hm Hb HG) as (ts' & E & _ & _ & Hc & Hd).
  rewrite HT in E. injection E as E; subst ts'. destruct (Hc t Ht) as [I N]. split; [exact I|].
  apply Hd; [apply I; cbn; auto|apply I; cbn; auto|apply I; cbn; auto|]. unfold corners in N. inversion N as [|? ? N1 N2]; subst. inversion N2 as [|? ? N3 _]; subst. cbn in N1, N3.
  split; [exists t; split; [exact Ht|]; intros x; unfold corners; cbn; intuition congruence|]. repeat split; intros X; [apply N1|apply N3|apply N1]; rewrite X; auto.
Qed.
Lemma out_complete a b c : delaunay V a b c -> In a (map loc vs) -> In b (map loc vs) -> In c (map loc vs) -> dist2 a b <= m /\ dist2 b c <= m /\ dist2 a c <= m ->
  exists t, In t ts /\ forall x, x = loc (ta t) \/ x = loc (tb t) \/ x = loc (tc t) <-> x = a \/ x = b \/ x = c.
Proof.
  intros D Ha Hb' Hc' Hl. destruct (@triangulate_delaunay SO vs m lx hx ly hy Hp Hlen Hm Hb HG) as (ts' & E & _ & _ & Hc & Hd).
  rewrite HT in E. injection E as E; subst ts'. apply in_map_iff in Ha, Hb', Hc'. destruct Ha as (va & <- & Ha), Hb' as (vb & <- & Hb'), Hc' as (vc & <- & Hc').
  destruct (proj2 (Hd va vb vc Ha Hb' Hc') (conj D Hl)) as ((t & Ht & Q) & _). exists t. split; [exact Ht|].
  assert (Qa : In (ta t) (corners t)) by (cbn; auto). assert (Qb : In (tb t) (corners t)) by (cbn; auto). assert (Qc : In (tc t) (corners t)) by (cbn; auto).
  apply Q in Qa, Qb, Qc.
  assert (Ra : In va (corners t)) by (apply Q; auto). assert (Rb : In vb (corners t)) by (apply Q; auto). assert (Rc : In vc (corners t)) by (apply Q; auto). cbn in Ra, Rb, Rc.
  intros x. split; intros [->|[->| ->]].
  - destruct Qa as [->|[->| ->]]; auto.
  - destruct Qb as [->|[->| ->]]; auto.
  - destruct Qc as [->|[->| ->]]; auto.
  - destruct Ra as [<-|[<-|[<-|[]]]]; auto.
  - destruct Rb as [<-|[<-|[<-|[]]]]; auto.
  - destruct Rc as [<-|[<-|[<-|[]]]]; auto.
Qed.
Theorem out_disjoint t t' q : In t ts -> In t' ts -> inside (loc (ta t)) (loc (tb t)) (loc (tc t)) q -> inside (loc (ta t')) (loc (tb t')) (loc (tc t')) q -> t = t'.
Proof.
  intros Ht Ht' I I'. destruct (out_delaunay _ Ht) as (Hi & D & _). destruct (out_delaunay _ Ht') as (Hi' & D' & _).
  assert (K := delaunay_disjoint HG D D' I I').
  destruct (@triangulate_delaunay SO vs m lx hx ly hy Hp Hlen Hm Hb HG) as (ts' & E & _ & Hu & _). rewrite HT in E. injection E as E; subst ts'.
  apply Hu; auto. assert (Inj : forall x y, In x vs -> In y vs -> loc x = loc y -> x = y) by (intros x y X Y; apply (nodup_map_inj loc vs); [apply Hp|exact X|exact Y]).
  assert (Half : forall (s s' : triangle RX), incl (corners s) vs -> incl (corners s') vs -> (forall x, x = loc (ta s) \/ x = loc (tb s) \/ x = loc (tc s) -> x = loc (ta s') \/ x = loc (tb s') \/ x = loc (tc s')) ->
     forall x, In x (corners s) -> In x (corners s')).
  { clear - Inj. intros s s' I I' H x Hx. assert (L : loc x = loc (ta s) \/ loc x = loc (tb s) \/ loc x = loc (tc s)) by (destruct Hx as [<-|[<-|[<-|[]]]]; auto).
    apply H in L. assert (Vx := I x Hx). destruct L as [L|[L|L]]; apply Inj in L; auto; try (apply I'; cbn; auto); subst x; cbn; auto. }
  intros x. split; apply Half; auto; intros y; apply K.
Qed.
Theorem out_cover q : lx <= fst q <= hx -> ly <= snd q <= hy -> (forall a b, In a V -> In b V -> a <> b -> area2 a b q <> 0) ->
  exists a b c, delaunay V a b c /\ inside a b c q /\
    (forall d e f, delaunay V d e f -> inside d e f q -> forall x, x = d \/ x = e \/ x = f <-> x = a \/ x = b \/ x = c) /\
    ((exists t, In t ts /\ inside (loc (ta t)) (loc (tb t)) (loc (tc t)) q) <->
     (In a (map loc vs) /\ In b (map loc vs) /\ In c (map loc vs)) /\ dist2 a b <= m /\ dist2 b c <= m /\ dist2 a c <= m).
Proof.
  intros X Y Off. assert (F3 : exists p0 p1 p2, frame lx hx ly hy = [p0; p1; p2]) by (do 3 eexists; reflexivity). destruct F3 as (p0 & p1 & p2 & Ef).
  destruct (frame_inside q Ef X Y) as [A I].
  destruct (@delaunay_cover V q HG) as (a & b & c & D & Iq); [exists p0, p1, p2; unfold V; rewrite Ef; cbn; auto 9|exact Off|].
  exists a, b, c. split; [exact D|]. split; [exact Iq|].
  assert (U : forall d e f, delaunay V d e f -> inside d e f q -> forall x, x = d \/ x = e \/ x = f <-> x = a \/ x = b \/ x = c).
  { intros d e f D' I'. exact (delaunay_disjoint HG D' D I' Iq). }
  split; [exact U|]. assert (Dn := D). destruct Dn as (_ & _ & _ & N1 & N2 & N3 & _). split.
  - intros (t & Ht & It). destruct (out_delaunay _ Ht) as (Hi & D' & Hl). assert (K := U _ _ _ D' It). assert (Dn' := D'). destruct Dn' as (_ & _ & _ & M1 & M2 & M3 & _).
    assert (In3 : forall x, x = a \/ x = b \/ x = c -> In x (map loc vs)).
    { intros x Hx. apply K in Hx. destruct Hx as [->|[->| ->]]; apply in_map, Hi; cbn; auto. }
    split; [repeat split; apply In3; auto|]. eapply edges_perm; [exact K| | | | | | |exact Hl]; assumption.
  - intros ((Ha & Hb' & Hc) & Hl). destruct (out_complete D Ha Hb' Hc Hl) as (t & Ht & K). exists t. split; [exact Ht|]. destruct (out_delaunay _ Ht) as (_ & D' & _).
    destruct D' as (_ & _ & _ & M1 & M2 & M3 & _). eapply inside_perm; [|exact N1|exact N2|exact N3|exact M1|exact M2|exact M3|exact Iq]. intros x. symmetry. apply K.
Qed.
End Out.
