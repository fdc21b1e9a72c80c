(** C112: the vector and quaternion classes. *)
From Coq Require Import Reals Lra Lia.
From Verif Require Import Lib NumReal NumFloat LibR Sensors Vec Spec_Vec Ex.
Local Open Scope list_scope.
Local Open Scope R_scope.

(** ** comparison *)
(** over the reals two vectors are equal exactly if no axis differs by the tolerance or more *)
Theorem C112_equal e a b c a' b' c' : v_eq (Some e : RX) (rv a b c) (rv a' b' c') = true <-> farthest a b c a' b' c' < e.
Proof.
  unfold v_eq, rv, farthest. cbn [vx vy vz]. rewrite !rx_sub, !rx_abs, !rx_ltb, !andb_true_iff, !Rltb_true.
  split; [intros [[H1 H2] H3]; repeat apply Rmax_lub_lt; assumption|].
  intros H. assert (A := Rmax_l (Rabs (a - a')) (Rmax (Rabs (b - b')) (Rabs (c - c')))).
  assert (B := Rmax_r (Rabs (a - a')) (Rmax (Rabs (b - b')) (Rabs (c - c')))).
  assert (C := Rmax_l (Rabs (b - b')) (Rabs (c - c'))). assert (D := Rmax_r (Rabs (b - b')) (Rabs (c - c'))).
  repeat split; lra.
Qed.
Print Assumptions C112_equal.
Theorem C112_core a b c a' b' c' : v_eq (core_eps : RX) (rv a b c) (rv a' b' c') = true <-> farthest a b c a' b' c' < 1 / 100000000.
Proof. unfold core_eps. rewrite rx_lit by lra. apply C112_equal. Qed.
Print Assumptions C112_core.
(** so the comparison is reflexive and symmetric, but chains of equal vectors lead anywhere *)
Theorem C112_symmetric e u v : v_eq (Some e : RX) u v = v_eq (Some e : RX) v u.
Proof.
  assert (S : forall x y : RX, fabs (x -! y) = fabs (y -! x)).
  { intros [x|] [y|]; try reflexivity. rewrite !rx_sub, !rx_abs. f_equal. apply Rabs_minus_sym. }
  unfold v_eq. rewrite (S (vx u)), (S (vy u)), (S (vz u)). reflexivity.
Qed.
Print Assumptions C112_symmetric.
Lemma nat_above r : exists n, r < INR n.
Proof.
  exists (Z.to_nat (up r)). destruct (archimed r) as [H _]. rewrite INR_IZR_INZ.
  assert (L : (up r <= Z.of_nat (Z.to_nat (up r)))%Z) by lia. apply IZR_le in L. lra.
Qed.
Theorem C112_transitive_refuted e : 0 < e -> forall d, exists chain : nat -> vec3 RX, (forall n, v_eq (Some e : RX) (chain n) (chain (S n)) = true) /\
  exists n, v_eq (Some d : RX) (chain 0%nat) (chain n) = false.
Proof.
  intros He d. exists (fun n => rv (INR n * (e / 2)) 0 0). split.
  - intros n. apply C112_equal. unfold farthest. rewrite S_INR. replace (INR n * (e / 2) - (INR n + 1) * (e / 2)) with (- (e / 2)) by ring.
    rewrite Rabs_Ropp, (Rabs_right (e / 2)) by lra. rewrite Rminus_0_r, Rabs_R0. repeat apply Rmax_lub_lt; lra.
  - destruct (nat_above (d / (e / 2))) as (n & Hn). exists n.
    destruct (v_eq _ _ _) eqn:E; [|reflexivity]. exfalso. apply C112_equal in E. unfold farthest in E.
    assert (A := Rmax_l (Rabs (INR 0 * (e / 2) - INR n * (e / 2))) (Rmax (Rabs (0 - 0)) (Rabs (0 - 0)))).
    cbn [INR] in A, E. rewrite Rmult_0_l in A, E. replace (0 - INR n * (e / 2)) with (- (INR n * (e / 2))) in A, E by ring.
    rewrite Rabs_Ropp, Rabs_right in A, E by (apply Rle_ge, Rmult_le_pos; [apply pos_INR|lra]).
    assert (d < INR n * (e / 2)); [|lra]. apply Rmult_lt_compat_r with (r := e / 2) in Hn; [|lra].
    unfold Rdiv at 1 in Hn. rewrite Rmult_assoc, Rinv_l in Hn by lra. lra.
Qed.
Print Assumptions C112_transitive_refuted.
(** in doubles a vector with an infinite component is not equal to itself, though it is neither null *)
Theorem C112_reflexive_refuted : exists v : vec3 SF, @v_eq SF nf (@core_eps SF nf) v v = false /\ @v_ne SF nf (@core_eps SF nf) v v = true /\ @v_null SF nf v = false.
Proof. exists (mkV (@fdiv SF nf (@f1 SF nf) (@f0 SF nf)) (@f0 SF nf) (@f0 SF nf)). vm_compute. repeat split; reflexivity. Qed.
Print Assumptions C112_reflexive_refuted.

(** ** normalisation *)
(** the method that changes the object and the one that returns a new vector agree in any arithmetic *)
Theorem C112_normalize {F} {NF : Num F} (v : vec3 F) : v_normalize v = v_normalized v.
Proof. unfold v_normalize, v_normalized. destruct (feps <! fabs (v_mag v)); reflexivity. Qed.
Print Assumptions C112_normalize.
Theorem C112_unit a b c e : (feps : RX) = Some e -> 0 <= e -> let n := sqrt (a * a + b * b + c * c) in
  (e < n -> v_normalize (rv a b c) = rv (a / n) (b / n) (c / n) /\ v_mag (v_normalize (rv a b c)) = Some 1) /\
  (n <= e -> v_normalize (rv a b c) = rv a b c).
Proof.
  intros He H0 n. assert (P : 0 <= a * a + b * b + c * c) by nra.
  assert (M : v_mag (rv a b c) = (Some n : RX)).
  { unfold v_mag, rv. cbn [vx vy vz]. rewrite !rx_mul, !rx_add, rx_sqrt by exact P. reflexivity. }
  assert (Pn : 0 <= n) by apply sqrt_pos. unfold v_normalize. rewrite M, rx_abs, He, rx_ltb, Rabs_right by lra.
  split; intros H.
  - assert (T : Rltb e n = true) by (apply Rltb_true; exact H). rewrite T. unfold v_div, rv. cbn [vx vy vz].
    rewrite !rx_div by lra. split; [reflexivity|]. unfold v_mag. cbn [vx vy vz]. rewrite !rx_mul, !rx_add.
    assert (Q : a / n * (a / n) + b / n * (b / n) + c / n * (c / n) = 1).
    { replace (a / n * (a / n) + b / n * (b / n) + c / n * (c / n)) with ((a * a + b * b + c * c) / (n * n)) by (field; lra).
      unfold n. rewrite sqrt_sqrt by exact P. apply Rinv_r. intros Z. assert (n = 0) by (unfold n; rewrite Z; apply sqrt_0). lra. }
    rewrite Q, rx_sqrt by lra. rewrite sqrt_1. reflexivity.
  - assert (T : Rltb e n = false) by (apply Rltb_false; exact H). rewrite T. reflexivity.
Qed.
Print Assumptions C112_unit.

(** ** products *)
(** dot and cross product: the cross product is orthogonal to both factors, changes sign when they are
    exchanged, and the squares of both products add up to the product of the squared lengths *)
Theorem C112_cross a b c a' b' c' : let u := rv a b c in let v := rv a' b' c' in
  v_dot (v_cross u v) u = Some 0 /\ v_dot (v_cross u v) v = Some 0 /\ v_cross u v = v_neg (v_cross v u) /\ v_dot u v = v_dot v u /\
  v_dot (v_cross u v) (v_cross u v) = v_dot u u *! v_dot v v -! v_dot u v *! v_dot u v.
Proof.
  cbv zeta. unfold v_cross, v_dot, v_neg, rv. cbn [vx vy vz]. repeat (rewrite ?rx_mul, ?rx_add, ?rx_sub, ?rx_opp).
  repeat split; first [f_equal; ring|f_equal; f_equal; ring].
Qed.
Print Assumptions C112_cross.
(** the quaternion product is associative, has the unit and multiplies norms; turning a vector by a unit
    quaternion gives a vector of the same length, and turning twice is turning by the product *)
Definition turn (q : quat RX) (v : vec3 RX) : quat RX := q_mul (q_mul q (q_of_vec v)) (q_conj q).
Theorem C112_product w x y z w' x' y' z' w2 x2 y2 z2 : let p := rq w x y z in let q := rq w' x' y' z' in let r := rq w2 x2 y2 z2 in
  q_mul (q_mul p q) r = q_mul p (q_mul q r) /\ q_mul p q_one = p /\ q_mul q_one p = p /\
  q_norm (q_mul p q) = q_norm p *! q_norm q /\ q_conj (q_mul p q) = q_mul (q_conj q) (q_conj p) /\
  q_mul p (q_conj p) = rq (w * w + x * x + y * y + z * z) 0 0 0.
Proof.
  cbv zeta. unfold q_mul, q_one, q_conj, q_norm, rq. cbn [qw qx qy qz]. rewrite rx_f0, rx_f1.
  repeat (rewrite ?rx_mul, ?rx_add, ?rx_sub, ?rx_opp).
  split; [f_equal; f_equal; ring|]. split; [f_equal; f_equal; ring|]. split; [f_equal; f_equal; ring|].
  split; [|split; f_equal; f_equal; ring].
  assert (P : 0 <= w * w + x * x + y * y + z * z) by nra. assert (P' : 0 <= w' * w' + x' * x' + y' * y' + z' * z') by nra.
  rewrite !rx_sqrt; [|assumption|assumption|].
  - rewrite rx_mul, <- sqrt_mult by assumption. f_equal. f_equal. ring.
  - match goal with |- 0 <= ?t => assert (Q : t = (w * w + x * x + y * y + z * z) * (w' * w' + x' * x' + y' * y' + z' * z')) by ring; rewrite Q end.
    apply Rmult_le_pos; assumption.
Qed.
Print Assumptions C112_product.
Theorem C112_turn w x y z a b c : w * w + x * x + y * y + z * z = 1 -> exists a' b' c',
  turn (rq w x y z) (rv a b c) = rq 0 a' b' c' /\ a' * a' + b' * b' + c' * c' = a * a + b * b + c * c /\
  forall w' x' y' z', turn (rq w' x' y' z') (q_vec (turn (rq w x y z) (rv a b c))) = turn (q_mul (rq w' x' y' z') (rq w x y z)) (rv a b c).
Proof.
  intros H. set (a' := (w * w + x * x - y * y - z * z) * a + 2 * (x * y - w * z) * b + 2 * (x * z + w * y) * c).
  set (b' := 2 * (x * y + w * z) * a + (w * w - x * x + y * y - z * z) * b + 2 * (y * z - w * x) * c).
  set (c' := 2 * (x * z - w * y) * a + 2 * (y * z + w * x) * b + (w * w - x * x - y * y + z * z) * c).
  assert (T : turn (rq w x y z) (rv a b c) = rq 0 a' b' c').
  { unfold turn, q_mul, q_of_vec, q_conj, rq, rv. cbn [qw qx qy qz vx vy vz]. rewrite rx_f0.
    repeat (rewrite ?rx_mul, ?rx_add, ?rx_sub, ?rx_opp). unfold a', b', c'. f_equal; f_equal; ring. }
  exists a', b', c'. split; [exact T|]. split.
  - replace (a' * a' + b' * b' + c' * c') with ((w * w + x * x + y * y + z * z) * (w * w + x * x + y * y + z * z) * (a * a + b * b + c * c)) by (unfold a', b', c'; ring).
    rewrite H. ring.
  - intros w' x' y' z'. rewrite T. unfold turn, q_mul, q_of_vec, q_vec, q_conj, rq, rv. cbn [qw qx qy qz vx vy vz]. rewrite rx_f0.
    repeat (rewrite ?rx_mul, ?rx_add, ?rx_sub, ?rx_opp). unfold a', b', c'. f_equal; f_equal; ring.
Qed.
Print Assumptions C112_turn.

(** ** operators that change their object *)
(** with an argument of its own the operator computes the product; with the object as its own argument
    it reads components it has already replaced *)
Theorem C112_times {F} {NF : Num F} (a b : quat F) : q_imul a (Some b) = q_mul a b.
Proof. reflexivity. Qed.
Print Assumptions C112_times.
Theorem C112_self w x y z : let q := rq w x y z in
  (x = 0 -> y = 0 -> z = 0 -> q_imul q None = q_mul q q) /\
  (x <> 0 \/ y <> 0 \/ z <> 0 -> w * w - x * x - y * y - z * z <> w -> q_imul q None <> q_mul q q).
Proof.
  cbv zeta. split.
  - intros -> -> ->. unfold q_imul, q_mul, rq. cbn [qw qx qy qz]. repeat (rewrite ?rx_mul, ?rx_add, ?rx_sub). f_equal; f_equal; ring.
  - intros Hn Hw H. unfold q_imul, q_mul, rq in H. cbn [qw qx qy qz] in H. repeat (rewrite ?rx_mul, ?rx_add, ?rx_sub in H).
    injection H as H1 H2 H3. set (W := w * w - x * x - y * y - z * z) in *. assert (D : W - w <> 0) by lra.
    assert (X : x = 0) by (apply Rmult_eq_reg_r with (W - w); [|exact D]; lra). subst x.
    assert (Y : y = 0) by (apply Rmult_eq_reg_r with (W - w); [|exact D]; lra). subst y.
    assert (Z : z = 0) by (apply Rmult_eq_reg_r with (W - w); [|exact D]; lra). tauto.
Qed.
Print Assumptions C112_self.
(** scaling by a number of its own scales; by a reference to a component of the object only the last
    component assigned is safe *)
Theorem C112_scale {F} {NF : Num F} (q : quat F) k : q_iscale q (SVal k) = q_scale q k /\ q_iscale q SZ = q_scale q (qz q).
Proof. split; reflexivity. Qed.
Print Assumptions C112_scale.
Theorem C112_scale_self w x y z : let q := rq w x y z in
  q_iscale q SW = rq (w * w) (x * (w * w)) (y * (w * w)) (z * (w * w)) /\
  (q_iscale q SW = q_scale q (qw q) <-> (x = 0 /\ y = 0 /\ z = 0) \/ w = 0 \/ w = 1).
Proof.
  cbv zeta. assert (E : q_iscale (rq w x y z) SW = rq (w * w) (x * (w * w)) (y * (w * w)) (z * (w * w))).
  { unfold q_iscale, deref, rq. cbn [qw qx qy qz]. repeat rewrite rx_mul. reflexivity. }
  split; [exact E|]. rewrite E. unfold q_scale, rq. cbn [qw qx qy qz]. repeat rewrite rx_mul. split.
  - intros H. injection H as H1 H2 H3. destruct (Req_dec w 0) as [|N0]; [auto|]. destruct (Req_dec w 1) as [|N1]; [auto|]. left.
    assert (D : w * (w - 1) <> 0) by (apply Rmult_integral_contrapositive_currified; lra).
    repeat split; (apply Rmult_eq_reg_r with (w * (w - 1)); [|exact D]; lra).
  - intros [(-> & -> & ->)|[->| ->]]; f_equal; f_equal; ring.
Qed.
Print Assumptions C112_scale_self.

(** ** concrete cases *)
Example C112_example_chain : v_eq (Some (1 / 100) : RX) (rv 1 2 3) (rv 1 2 (3 + 1 / 200)) = true.
Proof.
  apply C112_equal. unfold farthest. replace (1 - 1) with 0 by ring. replace (2 - 2) with 0 by ring. replace (3 - (3 + 1 / 200)) with (- (1 / 200)) by lra.
  rewrite Rabs_R0, Rabs_Ropp, Rabs_right by lra. repeat apply Rmax_lub_lt; lra.
Qed.
(** the square of the quarter turn about z, in place and by the other operator, in doubles *)
Example C112_example_self : let q := mkQ (@lit SF nf 6 10) (@f0 SF nf) (@f0 SF nf) (@lit SF nf 8 10) in
  @feqb SF nf (qz (@q_imul SF nf q None)) (qz (@q_mul SF nf q q)) = false /\ @feqb SF nf (qw (@q_imul SF nf q None)) (qw (@q_mul SF nf q q)) = true.
Proof. vm_compute. split; reflexivity. Qed.
Example C112_example_turn : 3 / 5 * (3 / 5) + 0 * 0 + 0 * 0 + 4 / 5 * (4 / 5) = 1.
Proof. lra. Qed.
