(** Proofs about level outlines (C94, C95). *)
From Coq Require Import Reals Lra Lia Psatz Permutation.
From Verif Require Import Lib NumReal LevelModel Spec_Post Spec_Geo Pf_Geo Outline Spec_Outline Pf_Wind.
Set Implicit Arguments.
Local Open Scope R_scope.
Local Open Scope list_scope.

Definition vsub (a p : pt) : pt := (fst a - fst p, snd a - snd p).
Fixpoint wsum (e p : pt) (r : list pt) : Z :=
  match r with
  | a :: ((b :: _) as t) => (half e (vsub a p) (vsub b p) + wsum e p t)%Z
  | _ => 0%Z
  end.

Lemma wsum_cons e p a b t : wsum e p (a :: b :: t) = (half e (vsub a p) (vsub b p) + wsum e p (b :: t))%Z.
Proof. reflexivity. Qed.
Lemma edge_cons a b t : edge (a :: b :: t) a b.
Proof. exists [], t. reflexivity. Qed.
Lemma edge_tl x t a b : edge t a b -> edge (x :: t) a b.
Proof. intros (l1 & l2 & ->). exists (x :: l1), l2. reflexivity. Qed.
Lemma edge_inv x y t a b : edge (x :: y :: t) a b -> (a = x /\ b = y) \/ edge (y :: t) a b.
Proof.
  intros ([|c l1] & l2 & E).
  - injection E as -> -> ->. auto.
  - right. injection E as -> E. exists l1, l2. exact E.
Qed.
Lemma edge_one x a b : ~ edge [x] a b.
Proof. intros ([|c [|d l1]] & l2 & E); discriminate E. Qed.
Lemma edge_nil a b : ~ edge [] a b.
Proof. intros ([|c l1] & l2 & E); discriminate E. Qed.
Lemma edge_in r a b : edge r a b -> In a r /\ In b r.
Proof. intros (l1 & l2 & ->). split; apply in_or_app; right; cbn; auto. Qed.

Lemma vsub_along a b k p : along (vsub a p) (vsub b p) k = vsub (along a b k) p.
Proof. unfold along, vsub. cbn [fst snd]. f_equal; ring. Qed.
Lemma origin_on a b p : at_origin (vsub a p) (vsub b p) <-> on_segment p a b.
Proof.
  split; intros (k & K & E); exists k; (split; [exact K|]).
  - rewrite vsub_along in E. destruct (along a b k) as [x y], p as [p1 p2]. unfold vsub in E. cbn [fst snd] in E. injection E as E1 E2. f_equal; lra.
  - rewrite vsub_along, <- E. unfold vsub. f_equal; ring.
Qed.
Lemma on_ring_cons a b t p : on_ring (a :: b :: t) p <-> on_segment p a b \/ on_ring (b :: t) p.
Proof.
  split.
  - intros (x & y & Ex & S). apply edge_inv in Ex. destruct Ex as [[-> ->]|Ex]; [left; exact S|right; exists x, y; auto].
  - intros [S|(x & y & Ex & S)]; [exists a, b; split; [apply edge_cons|exact S]|exists x, y; split; [apply edge_tl, Ex|exact S]].
Qed.
Lemma on_ring_one a p : ~ on_ring [a] p.
Proof. intros (x & y & H & _). exact (edge_one H). Qed.

(** ** The direction of the ray *)
Definition pgap (e p a : pt) : Z :=
  gap (sg (cr down (vsub a p))) (sg (dt down (vsub a p))) (sg (cr e (vsub a p))) (sg (dt e (vsub a p))) (sg (cr down e)) (sg (dt down e)).
Lemma wsum_gap e p : e <> (0, 0) -> forall r a, ~ on_ring (a :: r) p ->
  (wsum e p (a :: r) - wsum down p (a :: r))%Z = (pgap e p (last r a) - pgap e p a)%Z.
Proof.
  intros Ne. induction r as [|b r IH]; intros a H; [cbn; lia|]. rewrite on_ring_cons in H.
  assert (H1 : ~ at_origin (vsub a p) (vsub b p)) by (rewrite origin_on; tauto).
  assert (H2 : ~ on_ring (b :: r) p) by tauto. specialize (IH b H2). assert (G := gap_edge Ne H1).
  rewrite !wsum_cons. fold (pgap e p a) in G. fold (pgap e p b) in G.
  assert (L : last (b :: r) a = last r b) by (destruct r as [|c r]; [reflexivity|]; clear; revert c; induction r as [|d r IHr]; intros c; [reflexivity|]; exact (IHr d)).
  rewrite L. lia.
Qed.
Lemma closed_last r : closed r -> exists a t, r = a :: t /\ last t a = a.
Proof. intros (_ & a & m & ->). exists a, (m ++ [a]). split; [reflexivity|]. apply last_last. Qed.
Lemma wsum_dir e p r : e <> (0, 0) -> closed r -> ~ on_ring r p -> wsum e p r = wsum down p r.
Proof.
  intros Ne C H. destruct (closed_last C) as (a & t & -> & L). assert (G := @wsum_gap e p Ne t a H). rewrite L in G. lia.
Qed.

(** ** Segments and rays *)
Lemma ray_vsub p e s x : x = ray p e s <-> vsub x p = (s * fst e, s * snd e).
Proof.
  unfold ray, vsub. destruct x as [x y], p as [p1 p2]. cbn [fst snd]. split; intros E; injection E as E1 E2; f_equal; lra.
Qed.
Lemma along_cr_zero e u v k s : along u v k = (s * fst e, s * snd e) -> cr e u + k * (cr e v - cr e u) = 0.
Proof. intros E. rewrite <- cr_along, E. unfold cr. cbn [fst snd]. ring. Qed.
Lemma along_cr_side e u v k s : along u v k = (s * fst e, s * snd e) -> k * cr u v = - (s * cr e u).
Proof.
  intros E. replace (k * cr u v) with (cr u (along u v k)) by (unfold cr, along; cbn [fst snd]; ring).
  rewrite E. unfold cr. cbn [fst snd]. ring.
Qed.
Lemma half_hit e u v k s : 0 < s -> 0 < k < 1 -> along u v k = (s * fst e, s * snd e) ->
  (0 < cr e v - cr e u -> half e u v = 2%Z) /\ (cr e v - cr e u < 0 -> half e u v = (-2)%Z).
Proof.
  intros S K E. assert (Z := @along_cr_zero _ _ _ _ _ E). assert (Y := @along_cr_side _ _ _ _ _ E).
  split; intros D; unfold half.
  - assert (U : cr e u < 0) by nra. assert (V : 0 < cr e v) by nra. assert (G : 0 < cr u v) by nra.
    rewrite (sg_neg U), (sg_pos V), (sg_pos G). reflexivity.
  - assert (U : 0 < cr e u) by nra. assert (V : cr e v < 0) by nra. assert (G : cr u v < 0) by nra.
    rewrite (sg_pos U), (sg_neg V), (sg_neg G). reflexivity.
Qed.
(** [u] is not on the ray: not ahead when it is in line *)
Lemma not_ahead e u : e <> (0, 0) -> (forall s, 0 < s -> u <> (s * fst e, s * snd e)) -> cr e u = 0 -> (sg (dt e u) <= 0)%Z.
Proof.
  intros Ne H C. destruct (factor Ne C) as (k & E & S). rewrite S. destruct (sg_case k) as [[K ->]|[[K ->]|[K ->]]]; try lia.
  destruct (H k K E).
Qed.
(** the opposite sides, and the crossing ahead *)
Lemma opposite_hit e u v B : cr e u * cr e v < 0 -> sg (cr e v) = B -> (0 < B * sg (cr u v))%Z ->
  exists s k, 0 < s /\ 0 < k < 1 /\ along u v k = (s * fst e, s * snd e).
Proof.
  intros H HB HG. assert (Ne : e <> (0, 0)) by (intros ->; unfold cr in H; cbn [fst snd] in H; lra).
  destruct (@crossing_zero (cr e) (fun u v k => cr_along e u v k) u v H) as (k & K & Z).
  destruct (factor Ne Z) as (s & E & _). exists s, k.
  assert (K' : 0 < k < 1). { rewrite cr_along in Z. destruct (Req_dec k 0) as [->|K0]; [exfalso; nra|]. destruct (Req_dec k 1) as [->|K1]; [exfalso; nra|]. lra. }
  split; [|split; [exact K'|exact E]].
  assert (Y := @along_cr_side _ _ _ _ _ E).
  destruct (sg_case (cr e v)) as [[V Sv]|[[V Sv]|[V Sv]]]; rewrite Sv in HB; subst B.
  - assert (G : 0 < cr u v) by (apply sg1; destruct (sg_case (cr u v)) as [[_ X]|[[_ X]|[_ X]]]; rewrite X in *; lia).
    assert (cr e u < 0) by nra. destruct (Rle_or_lt s 0); [nra|assumption].
  - assert (G : cr u v < 0) by (apply sgm; destruct (sg_case (cr u v)) as [[_ X]|[[_ X]|[_ X]]]; rewrite X in *; lia).
    assert (0 < cr e u) by nra. destruct (Rle_or_lt s 0); [nra|assumption].
  - lia.
Qed.
Definition missed (e u v : pt) : Prop := forall s k, 0 < s -> 0 <= k <= 1 -> along u v k <> (s * fst e, s * snd e).
Lemma half_missed e u v : e <> (0, 0) -> missed e u v -> half e u v = 0%Z.
Proof.
  intros Ne M.
  assert (Au := @not_ahead e u Ne). assert (Av := @not_ahead e v Ne).
  assert (Hu : forall s, 0 < s -> u <> (s * fst e, s * snd e)).
  { intros s S E. apply (M s 0 S ltac:(lra)). rewrite <- E. unfold along. destruct u; cbn [fst snd]. f_equal; ring. }
  assert (Hv : forall s, 0 < s -> v <> (s * fst e, s * snd e)).
  { intros s S E. apply (M s 1 S ltac:(lra)). rewrite <- E. unfold along. destruct v; cbn [fst snd]. f_equal; ring. }
  specialize (Au Hu). specialize (Av Hv). unfold half, halfz.
  destruct (sg (cr e u) =? 0)%Z eqn:Zu.
  { apply Z.eqb_eq, sg0 in Zu. specialize (Au Zu). destruct (_ =? 0)%Z; [reflexivity|]. destruct (0 <? _)%Z eqn:X; [apply Z.ltb_lt in X; lia|reflexivity]. }
  destruct (sg (cr e v) =? 0)%Z eqn:Zv.
  { apply Z.eqb_eq, sg0 in Zv. specialize (Av Zv). destruct (0 <? _)%Z eqn:X; [apply Z.ltb_lt in X; lia|reflexivity]. }
  destruct (_ =? _)%Z eqn:X in |- *; [reflexivity|]. destruct (0 <? _)%Z eqn:Y; [|reflexivity]. exfalso.
  apply Z.ltb_lt in Y. apply Z.eqb_neq in Zu, Zv, X.
  destruct (@opposite_hit e u v (sg (cr e v))) as (s & k & S & K & E); [|reflexivity|exact Y|apply (M s k S ltac:(lra) E)].
  destruct (sg_case (cr e u)) as [[U Su]|[[U Su]|[U Su]]]; destruct (sg_case (cr e v)) as [[V Sv]|[[V Sv]|[V Sv]]]; rewrite Su, Sv in *; try lia; nra.
Qed.
Lemma turns_cr e a b p : turns_left e a b <-> 0 < cr e (vsub b p) - cr e (vsub a p).
Proof. unfold turns_left, cr, vsub. cbn [fst snd]. split; intros; nra. Qed.
Lemma half_crossing p e a b n : e <> (0, 0) -> crossing p e a b n -> half e (vsub a p) (vsub b p) = (2 * n)%Z.
Proof.
  intros Ne C. destruct C as [s k S K E T|s k S K E T|M].
  - apply ray_vsub in E. rewrite <- vsub_along in E. apply (half_hit _ S K E). apply turns_cr, T.
  - apply ray_vsub in E. rewrite <- vsub_along in E. apply (half_hit _ S K E). apply (turns_cr e b a p) in T. lra.
  - apply half_missed; [exact Ne|]. intros s k S K E. apply (M s k S K). apply ray_vsub. rewrite <- vsub_along. exact E.
Qed.
Lemma crossing_total p e a b : e <> (0, 0) -> (forall s, 0 < s -> a <> ray p e s) -> (forall s, 0 < s -> b <> ray p e s) ->
  exists n, crossing p e a b n.
Proof.
  intros Ne Ha Hb. set (u := vsub a p). set (v := vsub b p).
  assert (Hu : forall s, 0 < s -> u <> (s * fst e, s * snd e)) by (intros s S E; apply (Ha s S), ray_vsub, E).
  assert (Hv : forall s, 0 < s -> v <> (s * fst e, s * snd e)) by (intros s S E; apply (Hb s S), ray_vsub, E).
  destruct (Z.eq_dec (half e u v) 0) as [Hz|Hn].
  - exists 0%Z. apply cr_none. intros s k S K E. apply ray_vsub in E. rewrite <- vsub_along in E. fold u v in E.
    destruct (Req_dec k 0) as [->|K0]; [apply (Hu s S); rewrite <- E; unfold along; destruct u; cbn [fst snd]; f_equal; ring|].
    destruct (Req_dec k 1) as [->|K1]; [apply (Hv s S); rewrite <- E; unfold along; destruct v; cbn [fst snd]; f_equal; ring|].
    assert (K' : 0 < k < 1) by lra. destruct (half_hit _ S K' E) as [L R].
    destruct (Rtotal_order (cr e v - cr e u) 0) as [D|[D|D]]; [rewrite (R D) in Hz; discriminate| |rewrite (L D) in Hz; discriminate].
    assert (Z := @along_cr_zero _ _ _ _ _ E). assert (Cu : cr e u = 0) by nra. assert (Cv : cr e v = 0) by lra.
    assert (Au := not_ahead Ne Hu Cu). assert (Av := not_ahead Ne Hv Cv).
    assert (Du : dt e u <= 0) by (destruct (sg_case (dt e u)) as [[_ X]|[[X _]|[X _]]]; [rewrite X in Au; lia|lra|lra]).
    assert (Dv : dt e v <= 0) by (destruct (sg_case (dt e v)) as [[_ X]|[[X _]|[X _]]]; [rewrite X in Av; lia|lra|lra]).
    assert (P : 0 < dt e e). { unfold dt. destruct e as [e1 e2]. cbn [fst snd]. destruct (Req_dec e1 0) as [->|]; [|nra]. destruct (Req_dec e2 0) as [->|]; [congruence|nra]. }
    assert (Q : dt e (along u v k) = s * dt e e) by (rewrite E; unfold dt; cbn [fst snd]; ring). rewrite dt_along in Q. nra.
  - destruct (Z.eq_dec 0 0) as [_|X]; [|lia].
    assert (X : exists s k, 0 < s /\ 0 < k < 1 /\ along u v k = (s * fst e, s * snd e) /\ cr e v - cr e u <> 0).
    { assert (Au := not_ahead Ne Hu). assert (Av := not_ahead Ne Hv). unfold half, halfz in Hn.
      destruct (sg (cr e u) =? 0)%Z eqn:Zu.
      { apply Z.eqb_eq, sg0 in Zu. specialize (Au Zu). destruct (_ =? 0)%Z; [lia|]. destruct (0 <? _)%Z eqn:Y; [apply Z.ltb_lt in Y; lia|lia]. }
      destruct (sg (cr e v) =? 0)%Z eqn:Zv.
      { apply Z.eqb_eq, sg0 in Zv. specialize (Av Zv). destruct (0 <? _)%Z eqn:Y; [apply Z.ltb_lt in Y; lia|lia]. }
      destruct (_ =? _)%Z eqn:X in Hn; [lia|]. destruct (0 <? _)%Z eqn:Y; [|lia].
      apply Z.ltb_lt in Y. apply Z.eqb_neq in Zu, Zv, X.
      assert (Op : cr e u * cr e v < 0). { destruct (sg_case (cr e u)) as [[U Su]|[[U Su]|[U Su]]]; destruct (sg_case (cr e v)) as [[V Sv]|[[V Sv]|[V Sv]]]; rewrite Su, Sv in *; try lia; nra. }
      destruct (@opposite_hit e u v (sg (cr e v)) Op eq_refl Y) as (s & k & S & K & E). exists s, k. repeat split; try assumption; try lra; nra. }
    destruct X as (s & k & S & K & E & D). unfold u, v in E. rewrite vsub_along in E. apply ray_vsub in E.
    destruct (Rtotal_order (cr e v - cr e u) 0) as [L|[L|L]]; [|lra|].
    + exists (-1)%Z. apply (cr_right S K E). apply (turns_cr e b a p). fold u v. lra.
    + exists 1%Z. apply (cr_left S K E). apply (turns_cr e a b p). fold u v. lra.
Qed.
Lemma wsum_crossings p e r n : e <> (0, 0) -> crossings p e r n -> wsum e p r = (2 * n)%Z.
Proof.
  intros Ne C. induction C as [a|a b r n m C _ IH]; [reflexivity|]. rewrite wsum_cons, (half_crossing Ne C), IH. lia.
Qed.
Lemma crossings_total p e a r : free_ray (a :: r) p e -> exists n, crossings p e (a :: r) n.
Proof.
  intros [Ne F]. revert a F. induction r as [|b r IH]; intros a F; [exists 0%Z; constructor|].
  destruct (IH b) as [m Hm]; [intros x s Hx; apply F; right; exact Hx|].
  destruct (@crossing_total p e a b Ne) as [n Hn]; [intros s; apply F; left; reflexivity|intros s; apply F; right; left; reflexivity|].
  exists (n + m)%Z. constructor; assumption.
Qed.
(** a ray that passes no vertex exists *)
Lemma free_ray_exists r p : exists e, free_ray r p e.
Proof.
  assert (G : exists T, forall t, T <= t -> forall a s, In a r -> 0 < s -> a <> ray p (1, t) s).
  { induction r as [|b r [T IH]]; [exists 0; intros t _ a s []|].
    set (T' := (snd b - snd p) / (fst b - fst p) + 1). exists (Rmax T T'). intros t Ht a s [<-|Ha] S.
    - intros E. apply ray_vsub in E. unfold vsub in E. cbn [fst snd] in E. injection E as E1 E2.
      assert (T' <= t) by (eapply Rle_trans; [apply Rmax_r|exact Ht]). unfold T' in H. rewrite E1, E2 in H.
      replace (s * t / (s * 1)) with t in H by (field; lra). lra.
    - apply IH; [eapply Rle_trans; [apply Rmax_l|exact Ht]|exact Ha|exact S]. }
  destruct G as [T G]. exists (1, T). split; [intros X; injection X; lra|]. intros a s. apply G. lra.
Qed.

(** ** The winding strategy *)
Lemma rx_ltb' x y : (Some x <! Some y : bool) = Rltb x y. Proof. reflexivity. Qed.
Lemma half_down_zero u v : fst u = 0 -> fst v = 0 -> half down u v = 0%Z.
Proof. intros U V. unfold half. rewrite (@sg_zero (cr down u)), (@sg_zero (cr down v)) by (unfold cr, down; cbn [fst snd]; lra). reflexivity. Qed.
Lemma cr_down x : cr down x = fst x.
Proof. unfold cr, down. cbn [fst snd]. ring. Qed.
Lemma dt_down x : dt down x = - snd x.
Proof. unfold dt, down. cbn [fst snd]. ring. Qed.
(** a segment on the vertical line through the point *)
Lemma vertical_on a b p : fst a = fst p -> fst b = fst p ->
  (on_segment p a b <-> (snd a <= snd p <= snd b) \/ (snd b <= snd p <= snd a)).
Proof.
  intros Ha Hb. rewrite <- origin_on. split.
  - intros (k & K & E). rewrite vsub_along in E. unfold along, vsub in E. cbn [fst snd] in E. injection E as _ E.
    destruct (Rle_or_lt (snd a) (snd b)); [left|right]; split; nra.
  - intros H. apply (@line_origin down); [intros X; injection X; lra|rewrite cr_down; cbn; lra|rewrite cr_down; cbn; lra|].
    rewrite !dt_down. cbn [vsub snd]. nra.
Qed.
Lemma away_on e u v : e <> (0, 0) -> at_origin u v -> cr u v = 0 /\ cr e u * cr e v <= 0.
Proof.
  intros Ne (k & K & E). assert (C := @along_cr_zero e u v k 0). rewrite !Rmult_0_l in C. specialize (C (eq_sym E)).
  split.
  2:{ clear E. generalize dependent (cr e u). generalize (cr e v). intros y x C. destruct (Req_dec k 0) as [->|K0]; [nra|].
      assert (k * (x * y) <= 0); [|nra]. assert (X : k * y = (k - 1) * x) by lra. replace (k * (x * y)) with (x * (k * y)) by ring. rewrite X. nra. }
  unfold cr. unfold along in E. injection E as E1 E2. destruct u as [u1 u2], v as [v1 v2]. cbn [fst snd] in *.
  destruct (Req_dec k 0) as [->|K0]; [assert (u1 = 0) by lra; assert (u2 = 0) by lra; subst; ring|].
  assert (k * (u1 * v2 - u2 * v1) = 0); [|nra].
  replace (k * (u1 * v2 - u2 * v1)) with (u1 * (u2 + k * (v2 - u2)) - u2 * (u1 + k * (v1 - u1))) by ring. rewrite <- E1, <- E2. ring.
Qed.
Definition rwind (p : pt) (r : list pt) (n : Z) : option Z := winding (rx_pt p) (rx_ring r) n.
Lemma on_implies a b p : on_segment p a b -> cr (vsub a p) (vsub b p) = 0 /\ fst (vsub a p) * fst (vsub b p) <= 0.
Proof. rewrite <- origin_on. intros H. apply (@away_on down) in H; [|intros X; injection X; lra]. rewrite !cr_down in H. exact H. Qed.
Ltac rb := repeat match goal with
  | H : Reqb _ _ = true |- _ => apply Reqb_true in H
  | H : Reqb _ _ = false |- _ => apply Reqb_false in H
  | H : Rltb _ _ = true |- _ => apply Rltb_true in H
  | H : Rltb _ _ = false |- _ => apply Rltb_false in H
  | H : Rleb _ _ = true |- _ => apply Rleb_true in H
  | H : Rleb _ _ = false |- _ => apply Rleb_false in H
  | H : andb _ _ = true |- _ => apply andb_prop in H; destruct H
  end.
Lemma on_first p b : on_segment p p b.
Proof. exists 0. split; [lra|]. unfold along. destruct p. cbn [fst snd]. f_equal; ring. Qed.
Lemma on_second p a : on_segment p a p.
Proof. exists 1. split; [lra|]. unfold along. destruct p, a. cbn [fst snd]. f_equal; ring. Qed.
Lemma rx_px p : px (rx_pt p) = Some (fst p). Proof. reflexivity. Qed.
Lemma rx_py p : py (rx_pt p) = Some (snd p). Proof. reflexivity. Qed.
Lemma winding_cons (p a b : XY RX) t n : winding p (a :: b :: t) n =
  if (px a =! px p) && (px b =! px p)
  then if ((py a <=! py p) && (py p <=! py b)) || ((py b <=! py p) && (py p <=! py a)) then None else winding p (b :: t) n
  else if (seg_count p a b =? 0)%Z then winding p (b :: t) n
  else if ((if (Z.abs (seg_count p a b) =? 1)%Z then side_equal p (if px a =! px p then a else b) (seg_count p a b) else side_of a b p) =? 0)%Z then None
  else winding p (b :: t) (if (0 <? (if (Z.abs (seg_count p a b) =? 1)%Z then side_equal p (if px a =! px p then a else b) (seg_count p a b) else side_of a b p) * seg_count p a b)%Z
                           then n + seg_count p a b else n)%Z.
Proof. reflexivity. Qed.
Lemma winding_step p a b t n :
  (on_segment p a b /\ rwind p (a :: b :: t) n = None) \/
  (~ on_segment p a b /\ rwind p (a :: b :: t) n = rwind p (b :: t) (n + half down (vsub a p) (vsub b p))).
Proof.
  assert (Nd : down <> (0, 0)) by (intros X; injection X; lra).
  unfold rwind, rx_ring. cbn [map]. rewrite winding_cons. generalize (winding (rx_pt p) (rx_pt b :: map rx_pt t)). intros W.
  assert (Hon := @on_implies a b p).
  unfold half. rewrite !cr_down, !dt_down. cbn [vsub fst snd] in *.
  unfold seg_count. rewrite !rx_px, !rx_py, !rx_eqb, !rx_leb, !rx_ltb.
  destruct (Reqb (fst a) (fst p)) eqn:Ea; destruct (Reqb (fst b) (fst p)) eqn:Eb; cbn [andb]; unfold side_equal; rewrite ?rx_py, ?rx_eqb, ?rx_ltb; rb.
  - destruct (_ || _) eqn:O.
    + left. split; [|reflexivity]. apply vertical_on; [exact Ea|exact Eb|]. apply orb_prop in O. destruct O; rb; lra.
    + right. split.
      * rewrite (@vertical_on a b p Ea Eb). apply orb_false_elim in O. destruct O as [O1 O2].
        apply andb_false_iff in O1, O2. intros [X|X]; [destruct O1|destruct O2]; rb; lra.
      * rewrite (@sg_zero (fst a - fst p)), (@sg_zero (fst b - fst p)) by lra. cbn [halfz Z.eqb]. rewrite Z.add_0_r. reflexivity.
  - rewrite (@sg_zero (fst a - fst p)) by lra. unfold halfz. cbn [Z.eqb].
    destruct (Reqb (snd p) (snd a)) eqn:Es; rb.
    { left. split; [replace p with a by (destruct a, p; cbn [fst snd] in *; f_equal; lra); apply on_first|].
      cbn [Z.abs Z.eqb Pos.eqb]. destruct (Rltb (fst p) (fst b)); reflexivity. }
    right. split.
    { intros X. apply Hon in X. unfold cr, vsub in X. cbn [fst snd] in X. destruct X as [X _].
      assert ((snd a - snd p) * (fst b - fst p) = 0) by nra. apply Rmult_integral in H. destruct H; lra. }
    destruct (Rltb (fst p) (fst b)) eqn:Ed; rb.
    + rewrite (@sg_pos (fst b - fst p)) by lra. cbn [Z.eqb Z.abs].
      destruct (Rltb (snd p) (snd a)) eqn:Ey; rb; [rewrite (@sg_neg (- _)) by lra|rewrite (@sg_pos (- _)) by lra]; cbn [Z.eqb Z.opp Z.mul Z.ltb Z.compare Pos.mul]; rewrite ?Z.add_0_r; reflexivity.
    + rewrite (@sg_neg (fst b - fst p)) by lra. cbn [Z.eqb Z.abs].
      destruct (Rltb (snd p) (snd a)) eqn:Ey; rb; [rewrite (@sg_neg (- _)) by lra|rewrite (@sg_pos (- _)) by lra]; cbn [Z.eqb Z.opp Z.mul Z.ltb Z.compare Pos.mul]; rewrite ?Z.add_0_r; reflexivity.
  - rewrite (@sg_zero (fst b - fst p)) by lra. unfold halfz.
    assert (Sa : (sg (fst a - fst p) =? 0)%Z = false) by (apply Z.eqb_neq; rewrite sg0; lra). rewrite Sa. cbn [Z.eqb].
    destruct (Reqb (snd p) (snd b)) eqn:Es; rb.
    { left. split; [replace p with b by (destruct b, p; cbn [fst snd] in *; f_equal; lra); apply on_second|].
      destruct (Rltb (fst p) (fst a)); reflexivity. }
    right. split.
    { intros X. apply Hon in X. unfold cr, vsub in X. cbn [fst snd] in X. destruct X as [X _].
      assert ((fst a - fst p) * (snd b - snd p) = 0) by nra. apply Rmult_integral in H. destruct H; lra. }
    destruct (Rltb (fst p) (fst a)) eqn:Ed; rb.
    + rewrite (@sg_pos (fst a - fst p)) by lra. cbn [Z.eqb Z.abs].
      destruct (Rltb (snd p) (snd b)) eqn:Ey; rb; [rewrite (@sg_neg (- _)) by lra|rewrite (@sg_pos (- _)) by lra]; cbn [Z.eqb Z.opp Z.mul Z.ltb Z.compare Pos.mul]; rewrite ?Z.add_0_r; reflexivity.
    + rewrite (@sg_neg (fst a - fst p)) by lra. cbn [Z.eqb Z.abs].
      destruct (Rltb (snd p) (snd b)) eqn:Ey; rb; [rewrite (@sg_neg (- _)) by lra|rewrite (@sg_pos (- _)) by lra]; cbn [Z.eqb Z.opp Z.mul Z.ltb Z.compare Pos.mul]; rewrite ?Z.add_0_r; reflexivity.
  - assert (Gs : forall q : Z, side_of (rx_pt a) (rx_pt b) (rx_pt p) = sg (cr (vsub a p) (vsub b p))).
    { intros _. unfold side_of, rx_pt. cbn [px py]. rewrite !rx_sub, !rx_mul, rx_sub, rx_f0, rx_eqb, rx_ltb.
      replace ((fst b - fst a) * (snd p - snd a) - (snd b - snd a) * (fst p - fst a)) with (cr (vsub a p) (vsub b p)) by (unfold cr, vsub; cbn [fst snd]; ring).
      destruct (sg_case (cr (vsub a p) (vsub b p))) as [[H ->]|[[H ->]|[H ->]]].
      - assert (Reqb (cr (vsub a p) (vsub b p)) 0 = false) as -> by (apply Reqb_false; lra). apply Rltb_true in H. rewrite H. reflexivity.
      - assert (Reqb (cr (vsub a p) (vsub b p)) 0 = false) as -> by (apply Reqb_false; lra).
        assert (Rltb 0 (cr (vsub a p) (vsub b p)) = false) as -> by (apply Rltb_false; lra). reflexivity.
      - apply Reqb_true in H. rewrite H. reflexivity. }
    rewrite (Gs 0%Z). clear Gs. change (snd a - snd p, snd b - snd p) with (snd a - snd p, snd b - snd p).
    fold (vsub a p) (vsub b p) in Hon. fold (vsub a p) (vsub b p).
    assert (Opp : (fst a - fst p) * (fst b - fst p) < 0 -> cr (vsub a p) (vsub b p) = 0 -> on_segment p a b).
    { intros X Y. apply origin_on. apply (@opposite_origin down); [rewrite !cr_down; exact X|exact Y]. }
    destruct (Rltb (fst a) (fst p)) eqn:A1; destruct (Rltb (fst p) (fst b)) eqn:B1; cbn [andb]; rb.
    + rewrite (@sg_neg (fst a - fst p)), (@sg_pos (fst b - fst p)) by lra. unfold halfz. cbn [Z.eqb Z.abs Z.mul].
      destruct (sg_case (cr (vsub a p) (vsub b p))) as [[H ->]|[[H ->]|[H ->]]]; cbn [Z.eqb Z.ltb Z.compare Z.mul Pos.mul].
      * right. split; [intros X; apply Hon in X; lra|reflexivity].
      * right. split; [intros X; apply Hon in X; lra|rewrite Z.add_0_r; reflexivity].
      * left. split; [apply Opp; [nra|exact H]|reflexivity].
    + assert (Rltb (fst b) (fst p) = true) as -> by (apply Rltb_true; lra). assert (Rltb (fst p) (fst a) = false) as -> by (apply Rltb_false; lra).
      cbn [andb Z.eqb]. rewrite (@sg_neg (fst a - fst p)), (@sg_neg (fst b - fst p)) by lra. unfold halfz. cbn [Z.eqb Pos.eqb]. right.
      split; [intros X; apply Hon in X; nra|rewrite Z.add_0_r; reflexivity].
    + assert (Rltb (fst b) (fst p) = false) as -> by (apply Rltb_false; lra).
      cbn [andb Z.eqb]. rewrite (@sg_pos (fst a - fst p)), (@sg_pos (fst b - fst p)) by lra. unfold halfz. cbn [Z.eqb Pos.eqb]. right.
      split; [intros X; apply Hon in X; nra|rewrite Z.add_0_r; reflexivity].
    + assert (Rltb (fst b) (fst p) = true) as -> by (apply Rltb_true; lra). assert (Rltb (fst p) (fst a) = true) as -> by (apply Rltb_true; lra).
      rewrite (@sg_pos (fst a - fst p)), (@sg_neg (fst b - fst p)) by lra. unfold halfz. cbn [andb Z.eqb Z.abs Z.mul].
      destruct (sg_case (cr (vsub a p) (vsub b p))) as [[H ->]|[[H ->]|[H ->]]]; cbn [Z.eqb Z.ltb Z.compare Z.mul Pos.mul].
      * right. split; [intros X; apply Hon in X; lra|rewrite Z.add_0_r; reflexivity].
      * right. split; [intros X; apply Hon in X; lra|reflexivity].
      * left. split; [apply Opp; [nra|exact H]|reflexivity].
Qed.
Lemma winding_real p : forall r n, (on_ring r p /\ rwind p r n = None) \/ (~ on_ring r p /\ rwind p r n = Some (n + wsum down p r)%Z).
Proof.
  induction r as [|a [|b t] IH]; intros n.
  - right. split; [intros (x & y & H & _); exact (edge_nil H)|]. cbn. rewrite Z.add_0_r. reflexivity.
  - right. split; [apply on_ring_one|]. cbn. rewrite Z.add_0_r. reflexivity.
  - rewrite on_ring_cons. destruct (winding_step p a b t n) as [[H E]|[H E]]; [left; auto|]. rewrite E.
    destruct (IH (n + half down (vsub a p) (vsub b p))%Z) as [[H2 E2]|[H2 E2]]; rewrite E2; [left; auto|right]. split; [tauto|].
    rewrite wsum_cons. f_equal. lia.
Qed.
