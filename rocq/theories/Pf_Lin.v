(** Lemmas for C110: the rotation method solves definite systems of any size. *)
From Coq Require Import Reals Lra Lia.
From Verif Require Import Base NumReal LibR Smooth Spec_Poly.
Set Implicit Arguments.
Local Open Scope R_scope.

(** ** sums *)
Lemma sumn_ext n f g : (forall i, (i < n)%nat -> f i = g i) -> sumn n f = sumn n g.
Proof. intros H. unfold sumn. f_equal. apply map_ext_in. intros i Hi. apply in_seq in Hi. apply H. lia. Qed.
Lemma sumn_0 f : sumn 0 f = 0.
Proof. reflexivity. Qed.
Lemma sumn_S n f : sumn (S n) f = sumn n f + f n.
Proof. unfold sumn. rewrite seq_S, map_app, rsum_app. cbn [map Nat.add]. rewrite rsum_cons, rsum_nil. lra. Qed.
Lemma sumn_lin n a b f g : sumn n (fun i => a * f i + b * g i) = a * sumn n f + b * sumn n g.
Proof. induction n as [|n IH]; [rewrite !sumn_0; lra|]. rewrite !sumn_S, IH. ring. Qed.
Lemma sumn_scale n a f : sumn n (fun i => a * f i) = a * sumn n f.
Proof. induction n as [|n IH]; [rewrite !sumn_0; lra|]. rewrite !sumn_S, IH. ring. Qed.
Lemma sumn_add n f g : sumn n (fun i => f i + g i) = sumn n f + sumn n g.
Proof. induction n as [|n IH]; [rewrite !sumn_0; lra|]. rewrite !sumn_S, IH. ring. Qed.
Lemma sumn_zero n f : (forall i, (i < n)%nat -> f i = 0) -> sumn n f = 0.
Proof. intros H. induction n as [|n IH]; [apply sumn_0|]. rewrite sumn_S, IH, H; [lra|lia|intros; apply H; lia]. Qed.
Lemma sumn_swap n m (f : nat -> nat -> R) : sumn n (fun i => sumn m (f i)) = sumn m (fun j => sumn n (fun i => f i j)).
Proof.
  induction n as [|n IH]; [rewrite sumn_0; symmetry; apply sumn_zero; intros; apply sumn_0|].
  rewrite sumn_S, IH, <- sumn_add. apply sumn_ext. intros j Hj. rewrite sumn_S. reflexivity.
Qed.
Lemma sumn_one n k f : (k < n)%nat -> (forall i, (i < n)%nat -> i <> k -> f i = 0) -> sumn n f = f k.
Proof.
  intros Hk H. induction n as [|n IH]; [lia|]. rewrite sumn_S. destruct (Nat.eq_dec k n) as [->|Hn].
  - rewrite sumn_zero; [lra|]. intros i Hi. apply H; lia.
  - rewrite IH; [|lia|intros; apply H; lia]. rewrite (H n) by lia. lra.
Qed.
Lemma sumn_split n k f : (k < n)%nat -> (forall i, (i < k)%nat -> f i = 0) ->
  sumn n f = f k + rsum (map f (seq (S k) (n - S k))).
Proof.
  intros Hk H. unfold sumn. replace (seq 0 n) with (seq 0 k ++ k :: seq (S k) (n - S k)).
  - rewrite map_app, rsum_app. cbn [map]. rewrite rsum_cons.
    change (rsum (map f (seq 0 k))) with (sumn k f). rewrite sumn_zero by exact H. lra.
  - replace n with (k + S (n - S k))%nat at 2 by lia. rewrite seq_app. cbn [seq Nat.add]. reflexivity.
Qed.

Section Solver.
Variable n : nat.
Variable A : nat -> nat -> R.
Variable b : nat -> R.
Hypothesis HA : definite n A.

Definition repr (E : nat -> nat -> RX) (M : nat -> nat -> R) : Prop :=
  forall r c, (r < n)%nat -> (c <= n)%nat -> E r c = Some (M r c).
Definition sol (M : nat -> nat -> R) (x : nat -> R) : Prop :=
  forall r, (r < n)%nat -> sumn n (fun c => M r c * x c) = M r n.
Definition combo (M Y : nat -> nat -> R) : Prop :=
  forall r c, (r < n)%nat -> (c < n)%nat -> M r c = sumn n (fun i => Y r i * A i c).

(** before the rotations with row k *)
Definition stage (k : nat) (E : nat -> nat -> RX) : Prop := exists M Y,
  repr E M /\ combo M Y /\
  (forall r c, (r < n)%nat -> (c < k)%nat -> (c < r)%nat -> M r c = 0) /\
  (forall r, (k <= r < n)%nat -> Y r r <> 0 /\ forall i, (r < i)%nat -> Y r i = 0) /\
  (forall c, (c < k)%nat -> (c < n)%nat -> M c c <> 0) /\
  (forall x, sol M x -> solves n A b x).
(** between them: the rows k+1 .. j-1 have been treated *)
Definition mid (k j : nat) (E : nat -> nat -> RX) : Prop := exists M Y,
  repr E M /\ combo M Y /\
  (forall r c, (r < n)%nat -> (c < k)%nat -> (c < r)%nat -> M r c = 0) /\
  (forall r, (k < r < j)%nat -> (r < n)%nat -> M r k = 0) /\
  (forall r, (k < r < n)%nat -> Y r r <> 0 /\ forall i, (r < i)%nat -> Y r i = 0) /\
  (forall i, (j <= i)%nat -> Y k i = 0) /\
  (forall c, (c <= k)%nat -> M c c <> 0) /\
  (forall x, sol M x -> solves n A b x).

Lemma stage_start : stage 0 (extended n A b).
Proof.
  exists (fun i j => if Nat.eqb j n then b i else A i j), (fun r i => if Nat.eqb r i then 1 else 0).
  split; [intros r c _ _; reflexivity|]. split.
  { intros r c Hr Hc. destruct (Nat.eqb_spec c n); [lia|]. rewrite (@sumn_one n r); [rewrite Nat.eqb_refl; lra|exact Hr|].
    intros i _ Hi. destruct (Nat.eqb_spec r i); [congruence|lra]. }
  split; [intros; lia|]. split.
  { intros r _. rewrite Nat.eqb_refl. split; [lra|]. intros i Hi. destruct (Nat.eqb_spec r i); [lia|reflexivity]. }
  split; [intros; lia|]. intros x H i Hi. specialize (H i Hi). cbv beta in H. rewrite Nat.eqb_refl in H. rewrite <- H.
  apply sumn_ext. intros j Hj. destruct (Nat.eqb_spec j n); [lia|reflexivity].
Qed.

Lemma stage_open k E : (k < n)%nat -> stage k E -> mid k (S k) E.
Proof.
  intros Hk (M & Y & HR & HC & HZ & HY & HD & HS). exists M, Y. split; [exact HR|]. split; [exact HC|]. split; [exact HZ|].
  split; [intros; lia|]. split; [intros r Hr; apply HY; lia|]. split; [intros i Hi; apply HY; lia|]. split; [|exact HS].
  intros c Hc. destruct (Nat.eq_dec c k) as [->|]; [|apply HD; lia].
  destruct (HY k ltac:(lia)) as [Y1 Y2]. intros Z. apply (HA (Y k)); [exists k; auto|].
  rewrite sumn_swap. apply sumn_zero. intros c0 Hc0.
  transitivity (Y k c0 * M k c0).
  - rewrite (HC k c0 Hk Hc0), <- sumn_scale. apply sumn_ext. intros; ring.
  - destruct (Nat.lt_trichotomy c0 k) as [L|[->|L]].
    + rewrite (HZ k c0) by lia. ring.
    + rewrite Z. ring.
    + rewrite (Y2 c0) by lia. ring.
Qed.

Lemma mid_step k j E : (k < j < n)%nat -> mid k j E -> mid k (S j) (rotate n k j E).
Proof.
  intros Hj (M & Y & HR & HC & HZ & HP & HY & HK & HD & HS).
  assert (Hkk := HD k ltac:(lia)).
  set (q := M k k * M k k + M j k * M j k). assert (Pq : 0 < q) by (unfold q; nra).
  set (N := sqrt q). assert (PN : 0 < N) by (apply sqrt_lt_R0; exact Pq).
  assert (QN : N * N = q) by (apply sqrt_sqrt; lra).
  set (cs := M k k / N). set (sn := M j k / N).
  assert (C1 : cs * cs + sn * sn = 1).
  { unfold cs, sn. replace (M k k / N * (M k k / N) + M j k / N * (M j k / N)) with (q / (N * N)) by (unfold q; field; lra).
    rewrite QN. field. lra. }
  assert (C2 : cs <> 0) by (unfold cs; apply Rmult_integral_contrapositive_currified; [exact Hkk|apply Rinv_neq_0_compat; lra]).
  assert (C3 : cs * M j k - sn * M k k = 0) by (unfold cs, sn; field; lra).
  assert (C4 : sn * M j k + cs * M k k = N).
  { apply Rmult_eq_reg_r with N; [|lra]. rewrite QN. unfold cs, sn, q. field. lra. }
  set (M' := fun r c => if Nat.eqb r j then cs * M j c - sn * M k c else if Nat.eqb r k then sn * M j c + cs * M k c else M r c).
  set (Y' := fun r c => if Nat.eqb r j then cs * Y j c - sn * Y k c else if Nat.eqb r k then sn * Y j c + cs * Y k c else Y r c).
  assert (Mj : forall c, M' j c = cs * M j c - sn * M k c) by (intros; unfold M'; rewrite Nat.eqb_refl; reflexivity).
  assert (Mk : forall c, M' k c = sn * M j c + cs * M k c).
  { intros; unfold M'. destruct (Nat.eqb_spec k j); [lia|]. rewrite Nat.eqb_refl. reflexivity. }
  assert (Mo : forall r c, r <> j -> r <> k -> M' r c = M r c).
  { intros r c H1 H2; unfold M'. destruct (Nat.eqb_spec r j); [lia|]. destruct (Nat.eqb_spec r k); [lia|reflexivity]. }
  assert (Yj : forall c, Y' j c = cs * Y j c - sn * Y k c) by (intros; unfold Y'; rewrite Nat.eqb_refl; reflexivity).
  assert (Yk : forall c, Y' k c = sn * Y j c + cs * Y k c).
  { intros; unfold Y'. destruct (Nat.eqb_spec k j); [lia|]. rewrite Nat.eqb_refl. reflexivity. }
  assert (Yo : forall r c, r <> j -> r <> k -> Y' r c = Y r c).
  { intros r c H1 H2; unfold Y'. destruct (Nat.eqb_spec r j); [lia|]. destruct (Nat.eqb_spec r k); [lia|reflexivity]. }
  exists M', Y'. split.
  { (* the model performs this rotation *)
    intros r c Hr Hc. unfold rotate. rewrite (HR k k), (HR j k) by lia. rewrite !rx_mul, rx_add.
    change (M k k * M k k + M j k * M j k) with q. rewrite rx_sqrt by lra. fold N. rewrite !rx_div by lra. fold cs sn.
    assert (Zc : (c < k)%nat -> M' r c = M r c).
    { intros Lc. destruct (Nat.eq_dec r j) as [->|]; [rewrite Mj, !HZ by lia; ring|].
      destruct (Nat.eq_dec r k) as [->|]; [rewrite Mk, !HZ by lia; ring|]. apply Mo; assumption. }
    destruct (Nat.leb_spec k c) as [Lc|Lc]; cbn [andb]; [|rewrite Zc by exact Lc; apply HR; assumption].
    destruct (Nat.leb_spec c n); [|lia]. rewrite (HR j c), (HR k c), (HR r c) by lia. unfold M'.
    destruct (Nat.eqb r j); [rewrite !rx_mul, rx_sub; reflexivity|].
    destruct (Nat.eqb r k); [rewrite !rx_mul, rx_add; reflexivity|reflexivity]. }
  split.
  { intros r c Hr Hc. destruct (Nat.eq_dec r j) as [->|N1]; [|destruct (Nat.eq_dec r k) as [->|N2]].
    - rewrite Mj, (HC j c), (HC k c) by lia. replace (cs * _ - sn * _) with (cs * sumn n (fun i => Y j i * A i c) + - sn * sumn n (fun i => Y k i * A i c)) by ring.
      rewrite <- sumn_lin. apply sumn_ext. intros i Hi. rewrite Yj. ring.
    - rewrite Mk, (HC j c), (HC k c) by lia. rewrite <- sumn_lin. apply sumn_ext. intros i Hi. rewrite Yk. ring.
    - rewrite Mo by assumption. rewrite (HC r c) by lia. apply sumn_ext. intros i Hi. rewrite Yo by assumption. reflexivity. }
  split.
  { intros r c Hr Hc Hcr. destruct (Nat.eq_dec r j) as [->|N1]; [|destruct (Nat.eq_dec r k) as [->|N2]].
    - rewrite Mj, (HZ j c), (HZ k c) by lia. ring.
    - rewrite Mk, (HZ j c), (HZ k c) by lia. ring.
    - rewrite Mo by assumption. apply HZ; assumption. }
  split.
  { intros r Hr Hrn. destruct (Nat.eq_dec r j) as [->|N1]; [rewrite Mj; exact C3|].
    rewrite Mo by lia. apply HP; lia. }
  split.
  { intros r Hr. destruct (Nat.eq_dec r j) as [->|N1].
    - destruct (HY j ltac:(lia)) as [Y1 Y2]. split.
      + rewrite Yj, (HK j) by lia. replace (cs * Y j j - sn * 0) with (cs * Y j j) by ring.
        apply Rmult_integral_contrapositive_currified; assumption.
      + intros i Hi. rewrite Yj, (HK i), (Y2 i) by lia. ring.
    - destruct (HY r Hr) as [Y1 Y2]. split; [rewrite Yo by lia; exact Y1|]. intros i Hi. rewrite Yo by lia. apply Y2, Hi. }
  split.
  { intros i Hi. destruct (HY j ltac:(lia)) as [Y1 Y2]. rewrite Yk, (HK i), (Y2 i) by lia. ring. }
  split.
  { intros c Hc. destruct (Nat.eq_dec c k) as [->|N1]; [rewrite Mk, C4; lra|]. rewrite Mo by lia. apply HD. lia. }
  intros x Hx. apply HS. intros r Hr.
  set (L := fun r => sumn n (fun c => M r c * x c) - M r n).
  assert (LJ : cs * L j - sn * L k = 0).
  { specialize (Hx j ltac:(lia)). rewrite Mj in Hx.
    assert (E0 : sumn n (fun c => M' j c * x c) = cs * sumn n (fun c => M j c * x c) + - sn * sumn n (fun c => M k c * x c)).
    { rewrite <- sumn_lin. apply sumn_ext. intros i Hi. rewrite Mj. ring. }
    rewrite E0 in Hx. unfold L. lra. }
  assert (LK : sn * L j + cs * L k = 0).
  { specialize (Hx k ltac:(lia)). rewrite Mk in Hx.
    assert (E0 : sumn n (fun c => M' k c * x c) = sn * sumn n (fun c => M j c * x c) + cs * sumn n (fun c => M k c * x c)).
    { rewrite <- sumn_lin. apply sumn_ext. intros i Hi. rewrite Mk. ring. }
    rewrite E0 in Hx. unfold L. lra. }
  assert (Lj : L j = 0).
  { replace (L j) with ((cs * cs + sn * sn) * L j) by (rewrite C1; ring).
    replace ((cs * cs + sn * sn) * L j) with (cs * (cs * L j - sn * L k) + sn * (sn * L j + cs * L k)) by ring. rewrite LJ, LK. ring. }
  assert (Lk : L k = 0).
  { replace (L k) with ((cs * cs + sn * sn) * L k) by (rewrite C1; ring).
    replace ((cs * cs + sn * sn) * L k) with (cs * (sn * L j + cs * L k) - sn * (cs * L j - sn * L k)) by ring. rewrite LJ, LK. ring. }
  destruct (Nat.eq_dec r j) as [->|N1]; [unfold L in Lj; lra|]. destruct (Nat.eq_dec r k) as [->|N2]; [unfold L in Lk; lra|].
  specialize (Hx r Hr). rewrite Mo in Hx by assumption. rewrite <- Hx. apply sumn_ext. intros i Hi. rewrite Mo by assumption. reflexivity.
Qed.

Lemma mid_close k E : mid k n E -> stage (S k) E.
Proof.
  intros (M & Y & HR & HC & HZ & HP & HY & HK & HD & HS). exists M, Y. split; [exact HR|]. split; [exact HC|]. split.
  { intros r c Hr Hc Hcr. destruct (Nat.eq_dec c k) as [->|]; [apply HP; lia|apply HZ; lia]. }
  split; [intros r Hr; apply HY; lia|]. split; [intros c Hc _; apply HD; lia|exact HS].
Qed.

Lemma rows k : forall m j E, (k < j)%nat -> (j + m = n)%nat -> mid k j E ->
  mid k n (fold_left (fun E j => rotate n k j E) (seq j m) E).
Proof.
  induction m as [|m IH]; intros j E Hk Hj H; cbn [seq fold_left]; [replace n with j by lia; exact H|].
  apply IH; [lia|lia|]. apply mid_step; [lia|exact H].
Qed.
Lemma stages : forall m k E, (k + m = n)%nat -> stage k E ->
  stage n (fold_left (fun E k => fold_left (fun E j => rotate n k j E) (seq (S k) (n - S k)) E) (seq k m) E).
Proof.
  induction m as [|m IH]; intros k E Hk H; cbn [seq fold_left]; [replace n with k at 1 by lia; exact H|].
  apply IH; [lia|]. apply mid_close, rows; [lia|lia|]. apply stage_open; [lia|exact H].
Qed.

(** ** back substitution *)
Lemma back_fold (E : nat -> nat -> RX) M X x k v : repr E M -> (k < n)%nat ->
  forall l, (forall i, In i l -> (i < n)%nat /\ X i = Some (x i)) ->
  fold_left (fun v i => v -! E k i *! X i) l (Some v : RX) = Some (v - rsum (map (fun i => M k i * x i) l)).
Proof.
  intros HR Hk l. revert v. induction l as [|i t IH]; intros v H; cbn [fold_left map].
  - rewrite rsum_nil. f_equal. lra.
  - destruct (H i ltac:(left; reflexivity)) as [Hi Hx]. rewrite (HR k i) by lia. rewrite Hx, rx_mul, rx_sub, IH.
    + rewrite rsum_cons. f_equal. lra.
    + intros i0 H0. apply H. right. exact H0.
Qed.
Definition tri (M : nat -> nat -> R) (x : nat -> R) (r : nat) : Prop :=
  M r r * x r + rsum (map (fun i => M r i * x i) (seq (S r) (n - S r))) = M r n.
Lemma back_all (E : nat -> nat -> RX) M : repr E M -> (forall c, (c < n)%nat -> M c c <> 0) ->
  forall m X x, (m <= n)%nat -> (forall i, (m <= i < n)%nat -> X i = (Some (x i) : RX)) -> (forall r, (m <= r < n)%nat -> tri M x r) ->
  exists x', (forall i, (i < n)%nat -> fold_left (fun x k => back_subst n E x k) (rev (seq 0 m)) X i = Some (x' i)) /\
    forall r, (r < n)%nat -> tri M x' r.
Proof.
  intros HR HD. induction m as [|m IH]; intros X x Hm HX HT.
  - exists x. split; intros i Hi; [apply HX; lia|apply HT; lia].
  - rewrite seq_S, rev_app_distr. cbn [rev app fold_left Nat.add].
    set (v := (M m n - rsum (map (fun i => M m i * x i) (seq (S m) (n - S m)))) / M m m).
    apply IH with (x := fun i => if Nat.eqb i m then v else x i); [lia| |].
    + intros i Hi. unfold back_subst, setf. destruct (Nat.eqb_spec i m) as [->|]; [|apply HX; lia].
      rewrite (HR m n) by lia. rewrite (@back_fold E M X x); [|exact HR|lia|].
      * rewrite (HR m m), rx_div by (try lia; apply HD; lia). reflexivity.
      * intros i Hi2. apply in_seq in Hi2. split; [lia|apply HX; lia].
    + intros r Hr. unfold tri. assert (E0 : map (fun i => M r i * (if Nat.eqb i m then v else x i)) (seq (S r) (n - S r)) =
        map (fun i => M r i * x i) (seq (S r) (n - S r))).
      { apply map_ext_in. intros i Hi. apply in_seq in Hi. destruct (Nat.eqb_spec i m); [lia|reflexivity]. }
      rewrite E0. destruct (Nat.eqb_spec r m) as [->|]; [|apply HT; lia].
      unfold v. assert (Hd := HD m ltac:(lia)). field. exact Hd.
Qed.

Theorem solver : exists x, (forall i, (i < n)%nat -> solve_linear n (extended n A b) i = Some (x i)) /\ solves n A b x.
Proof.
  unfold solve_linear. assert (H := @stages n 0 (extended n A b) ltac:(lia) stage_start).
  set (E := fold_left _ (seq 0 n) _) in *. clearbody E.
  destruct H as (M & Y & HR & HC & HZ & HY & HD & HS).
  destruct (@back_all E M HR ltac:(intros; apply HD; assumption) n (fun _ => f0) (fun _ => 0)) as (x & Hx & HT); [lia|intros; lia|intros; lia|].
  exists x. split; [exact Hx|]. apply HS. intros r Hr. rewrite (@sumn_split n r) by (try exact Hr; intros i Hi; rewrite HZ by lia; ring).
  apply HT, Hr.
Qed.
Theorem solver_unique x y : solves n A b x -> solves n A b y -> forall i, (i < n)%nat -> x i = y i.
Proof.
  intros Hx Hy i Hi. destruct (Req_dec (x i) (y i)) as [E|E]; [exact E|]. exfalso.
  apply (HA (fun i => x i - y i)); [exists i; split; [exact Hi|lra]|].
  apply sumn_zero. intros k Hk. transitivity ((x k - y k) * sumn n (fun j => A k j * (x j - y j))).
  - rewrite <- sumn_scale. apply sumn_ext. intros; ring.
  - replace (sumn n (fun j => A k j * (x j - y j))) with (1 * sumn n (fun j => A k j * x j) + -1 * sumn n (fun j => A k j * y j)).
    + rewrite (Hx k Hk), (Hy k Hk). ring.
    + rewrite <- sumn_lin. apply sumn_ext. intros; ring.
Qed.
End Solver.

(** the result depends only on the entries of the extended matrix *)
Lemma rotate_ext {F} {NF : Num F} n k j (E E' : nat -> nat -> F) : (k < n)%nat -> (j < n)%nat ->
  (forall r c, (r < n)%nat -> (c <= n)%nat -> E r c = E' r c) ->
  forall r c, (r < n)%nat -> (c <= n)%nat -> rotate n k j E r c = rotate n k j E' r c.
Proof.
  intros Hk Hj H r c Hr Hc. unfold rotate. rewrite (H k k), (H j k), (H r c), (H j c), (H k c) by lia. reflexivity.
Qed.
Lemma solve_linear_ext {F} {NF : Num F} n (E E' : nat -> nat -> F) :
  (forall r c, (r < n)%nat -> (c <= n)%nat -> E r c = E' r c) ->
  forall i, (i < n)%nat -> solve_linear n E i = solve_linear n E' i.
Proof.
  intros H i Hi. unfold solve_linear.
  set (G := fun E k => fold_left (fun E j => rotate n k j E) (seq (S k) (n - S k)) E).
  assert (X : forall l (E E' : nat -> nat -> F), (forall k, In k l -> (k < n)%nat) ->
    (forall r c, (r < n)%nat -> (c <= n)%nat -> E r c = E' r c) ->
    forall r c, (r < n)%nat -> (c <= n)%nat -> fold_left G l E r c = fold_left G l E' r c).
  { induction l as [|k t IH]; intros E1 E2 Hl HE; cbn [fold_left]; [exact HE|]. apply IH; [intros; apply Hl; right; assumption|].
    assert (Hk : (k < n)%nat) by (apply Hl; left; reflexivity). unfold G.
    assert (Y : forall l (E E' : nat -> nat -> F), (forall j, In j l -> (j < n)%nat) ->
      (forall r c, (r < n)%nat -> (c <= n)%nat -> E r c = E' r c) ->
      forall r c, (r < n)%nat -> (c <= n)%nat -> fold_left (fun E j => rotate n k j E) l E r c = fold_left (fun E j => rotate n k j E) l E' r c).
    { induction l as [|j u IHl]; intros E3 E4 Hl2 HE2; cbn [fold_left]; [exact HE2|]. apply IHl; [intros; apply Hl2; right; assumption|].
      apply rotate_ext; [exact Hk|apply Hl2; left; reflexivity|exact HE2]. }
    apply Y; [|exact HE]. intros j Hj. apply in_seq in Hj. lia. }
  assert (HG := X (seq 0 n) E E' ltac:(intros k Hk; apply in_seq in Hk; lia) H).
  set (E1 := fold_left G (seq 0 n) E) in *. set (E2 := fold_left G (seq 0 n) E') in *. clearbody E1 E2.
  assert (Z : forall l (x1 x2 : nat -> F), (forall k, In k l -> (k < n)%nat) -> (forall i, (i < n)%nat -> x1 i = x2 i) ->
    forall i, (i < n)%nat -> fold_left (fun x k => back_subst n E1 x k) l x1 i = fold_left (fun x k => back_subst n E2 x k) l x2 i).
  { induction l as [|k t IH]; intros x1 x2 Hl Hx; cbn [fold_left]; [exact Hx|]. apply IH; [intros; apply Hl; right; assumption|].
    assert (Hk : (k < n)%nat) by (apply Hl; left; reflexivity). intros i0 Hi0. unfold back_subst, setf.
    destruct (Nat.eqb i0 k); [|apply Hx, Hi0]. rewrite (HG k k), (HG k n) by lia. f_equal.
    assert (W : forall l v, (forall i, In i l -> (i < n)%nat) -> fold_left (fun v i => v -! E1 k i *! x1 i) l v = fold_left (fun v i => v -! E2 k i *! x2 i) l v).
    { induction l as [|a u IHl]; intros v Hv; cbn [fold_left]; [reflexivity|].
      assert (Ha : (a < n)%nat) by (apply Hv; left; reflexivity).
      rewrite (HG k a), (Hx a) by lia. apply IHl. intros; apply Hv; right; assumption. }
    apply W. intros j Hj. apply in_seq in Hj. lia. }
  apply Z; [|reflexivity|exact Hi]. intros k Hk. apply in_rev, in_seq in Hk. lia.
Qed.
