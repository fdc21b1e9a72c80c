(** Winding numbers of closed polygonal lines: they do not depend on the
    direction of the ray. *)
From Coq Require Import Reals Lra Lia Psatz.
From Verif Require Import Lib NumReal Spec_Geo.
Set Implicit Arguments.
Local Open Scope R_scope.
Local Open Scope list_scope.

Definition sg (x : R) : Z := if Rltb 0 x then 1%Z else if Rltb x 0 then (-1)%Z else 0%Z.
Lemma sg_pos x : 0 < x -> sg x = 1%Z.
Proof. intros H. unfold sg. apply Rltb_true in H. rewrite H. reflexivity. Qed.
Lemma sg_neg x : x < 0 -> sg x = (-1)%Z.
Proof. intros H. unfold sg. assert (Rltb 0 x = false) as -> by (apply Rltb_false; lra). apply Rltb_true in H. rewrite H. reflexivity. Qed.
Lemma sg_zero x : x = 0 -> sg x = 0%Z.
Proof. intros ->. unfold sg. assert (Rltb 0 0 = false) as -> by (apply Rltb_false; lra). reflexivity. Qed.
Lemma sg_case x : (0 < x /\ sg x = 1%Z) \/ (x < 0 /\ sg x = (-1)%Z) \/ (x = 0 /\ sg x = 0%Z).
Proof. destruct (Rtotal_order x 0) as [H|[H|H]]; auto using sg_pos, sg_neg, sg_zero. Qed.
Lemma sg_mul x y : sg (x * y) = (sg x * sg y)%Z.
Proof.
  destruct (sg_case x) as [[Hx ->]|[[Hx ->]|[-> ->]]]; destruct (sg_case y) as [[Hy ->]|[[Hy ->]|[-> ->]]];
    first [apply sg_pos; nra | apply sg_neg; nra | apply sg_zero; ring].
Qed.
Lemma sg_opp x : sg (- x) = (- sg x)%Z.
Proof. destruct (sg_case x) as [[Hx ->]|[[Hx ->]|[-> ->]]]; first [apply sg_pos; lra | apply sg_neg; lra | apply sg_zero; lra]. Qed.
Lemma sg0 x : sg x = 0%Z <-> x = 0.
Proof. destruct (sg_case x) as [[Hx ->]|[[Hx ->]|[-> ->]]]; split; intros; try lia; lra. Qed.
Lemma sg1 x : sg x = 1%Z <-> 0 < x.
Proof. destruct (sg_case x) as [[Hx ->]|[[Hx ->]|[-> ->]]]; split; intros; try lia; lra. Qed.
Lemma sgm x : sg x = (-1)%Z <-> x < 0.
Proof. destruct (sg_case x) as [[Hx ->]|[[Hx ->]|[-> ->]]]; split; intros; try lia; lra. Qed.

(** signs of three terms with sum zero *)
Definition okz (a b c : Z) : bool :=
  (((0 <? a) || (0 <? b) || (0 <? c)) && ((a <? 0) || (b <? 0) || (c <? 0)) || ((a =? 0) && (b =? 0) && (c =? 0)))%Z.
Lemma okz_sum x y z : x + y + z = 0 -> okz (sg x) (sg y) (sg z) = true.
Proof.
  intros H. destruct (sg_case x) as [[Hx ->]|[[Hx ->]|[Hx ->]]]; destruct (sg_case y) as [[Hy ->]|[[Hy ->]|[Hy ->]]];
    destruct (sg_case z) as [[Hz ->]|[[Hz ->]|[Hz ->]]]; try reflexivity; lra.
Qed.

Definition cr (u v : pt) : R := fst u * snd v - snd u * fst v.
Definition dt (u v : pt) : R := fst u * fst v + snd u * snd v.

Local Open Scope Z_scope.
(** twice the turn of a segment over the ray, from the signs of the positions of
    its ends relative to the ray; [D], [B] across, [k], [m] along, [G] the
    orientation of the ends *)
Definition halfz (D B k m G : Z) : Z :=
  if (D =? 0) then (if B =? 0 then 0 else if 0 <? k then B else 0)
  else if (B =? 0) then (if 0 <? m then - D else 0)
  else if (D =? B) then 0 else if (0 <? B * G) then 2 * B else 0.
Definition half (e u v : pt) : Z := halfz (sg (cr e u)) (sg (cr e v)) (sg (dt e u)) (sg (dt e v)) (sg (cr u v)).

(** the difference between two rays at one point: [A] and [p] are across and
    along the first ray (direction [(0,-1)], so [p] is the opposite of the height),
    [D] and [k] across and along the second one, [E] and [w] the second ray
    relative to the first *)
Definition gap (A p D k E w : Z) : Z :=
  if (0 <? E) then (if (0 <? A) && (D <? 0) then -2 else if (A =? 0) && (0 <? p) || (D =? 0) && (0 <? k) then -1 else 0)
  else if (E <? 0) then (if (A <? 0) && (0 <? D) then 2 else if (A =? 0) && (0 <? p) || (D =? 0) && (0 <? k) then 1 else 0)
  else if (0 <? w) then 0
  else if (A <? 0) then 2 else if (A =? 0) then 1 else 0.

Definition signs : list Z := [-1; 0; 1]%Z.
Lemma sg_in x : In (sg x) signs.
Proof. destruct (sg_case x) as [[_ ->]|[[_ ->]|[_ ->]]]; cbn; auto. Qed.
(** the constraints on the signs; [imp a b] is a implies b *)
Definition imp (a b : bool) : bool := if a then b else true.
Definition consistent (A C p q D B k m E w G : Z) : bool :=
  imp (A =? 0) ((D =? - (E * p)) && (G =? p * C) && negb (p =? 0)) &&
  imp (C =? 0) ((B =? - (E * q)) && (G =? - (A * q)) && negb (q =? 0)) &&
  imp (D =? 0) ((A =? k * E) && (G =? k * B) && negb (k =? 0)) &&
  imp (B =? 0) ((C =? m * E) && (G =? - (m * D)) && negb (m =? 0)) &&
  imp (G =? 0) (negb (A * C =? -1) && negb (D * B =? -1)) &&
  imp ((A =? 0) && (C =? 0)) (p * q =? 1) && imp ((D =? 0) && (B =? 0)) (k * m =? 1) &&
  imp (E =? 0) ((D =? w * A) && (B =? w * C) && negb (w =? 0) && imp (A =? 0) (k =? w * p) && imp (C =? 0) (m =? w * q)) &&
  okz (A * B) (- (C * D)) (- (E * G)).
Definition all_signs (f : Z -> bool) : bool := forallb f signs.
Lemma gap_check : all_signs (fun A => all_signs (fun C => all_signs (fun p => all_signs (fun q => all_signs (fun D => all_signs (fun B =>
  all_signs (fun k => all_signs (fun m => all_signs (fun E => all_signs (fun w => all_signs (fun G =>
    imp (consistent A C p q D B k m E w G)
      (halfz D B k m G - halfz A C p q G =? gap C q B m E w - gap A p D k E w)))))))))))) = true.
Proof. vm_compute. reflexivity. Qed.
Lemma imp_elim (a b : bool) : imp a b = true -> a = true -> b = true.
Proof. intros H ->. exact H. Qed.
Lemma imp_intro a b : (a = true -> b = true) -> imp a b = true.
Proof. destruct a; cbn; auto. Qed.
Lemma all_elim f x : all_signs f = true -> In x signs -> f x = true.
Proof. intros H. apply (proj1 (forallb_forall f signs) H). Qed.

Local Open Scope R_scope.
Definition down : pt := (0, -1).
Definition at_origin (u v : pt) : Prop := exists k, 0 <= k <= 1 /\ (0, 0) = along u v k.
Ltac zb := repeat match goal with
  | H : (_ && _)%bool = true |- _ => apply andb_prop in H; destruct H
  | H : (_ =? _)%Z = true |- _ => apply Z.eqb_eq in H
  end.
Lemma between_zero x y : x * y < 0 -> 0 <= x / (x - y) <= 1 /\ x - y <> 0.
Proof.
  intros H. assert (N : x - y <> 0) by nra. split; [|exact N].
  assert (P : 0 < (x - y) * (x - y)) by nra.
  replace (x / (x - y)) with (x * (x - y) / ((x - y) * (x - y))) by (field; exact N).
  split; [apply Rmult_le_pos; [nra|apply Rlt_le, Rinv_0_lt_compat, P]|].
  apply (Rmult_le_reg_r ((x - y) * (x - y))); [exact P|]. unfold Rdiv. rewrite Rmult_assoc, Rinv_l by lra. nra.
Qed.
Lemma crossing_zero f (L : forall u v k, f (along u v k) = f u + k * (f v - f u)) u v : f u * f v < 0 ->
  exists k, 0 <= k <= 1 /\ f (along u v k) = 0.
Proof.
  intros H. exists (f u / (f u - f v)). destruct (between_zero H) as [K N]. split; [exact K|]. rewrite L. field. exact N.
Qed.
Lemma cr_along e u v k : cr e (along u v k) = cr e u + k * (cr e v - cr e u).
Proof. unfold cr, along. cbn [fst snd]. ring. Qed.
Lemma parallel_zero u v k : cr u v = 0 -> cr u (along u v k) = 0 /\ cr v (along u v k) = 0.
Proof. intros H. unfold cr, along in *. cbn [fst snd] in *. split; [replace (fst u * (snd u + k * (snd v - snd u)) - snd u * (fst u + k * (fst v - fst u))) with (k * (fst u * snd v - snd u * fst v)) by ring|
  replace (fst v * (snd u + k * (snd v - snd u)) - snd v * (fst u + k * (fst v - fst u))) with ((k - 1) * (fst u * snd v - snd u * fst v)) by ring]; rewrite H; ring. Qed.
Lemma two_zero e f x : cr e x = 0 -> cr f x = 0 -> cr e f <> 0 -> x = (0, 0).
Proof.
  unfold cr. destruct e as [e1 e2], f as [f1 f2], x as [x1 x2]. cbn [fst snd]. intros H1 H2 N.
  assert (A : x1 * (e1 * f2 - e2 * f1) = 0) by (replace (x1 * (e1 * f2 - e2 * f1)) with (f1 * (e1 * x2 - e2 * x1) - e1 * (f1 * x2 - f2 * x1)) by ring; rewrite H1, H2; ring).
  assert (B : x2 * (e1 * f2 - e2 * f1) = 0) by (replace (x2 * (e1 * f2 - e2 * f1)) with (f2 * (e1 * x2 - e2 * x1) - e2 * (f1 * x2 - f2 * x1)) by ring; rewrite H1, H2; ring).
  apply Rmult_integral in A, B. f_equal; tauto.
Qed.
(** the ends on opposite sides of a line through the origin, and on one line
    with it *)
Lemma opposite_origin e u v : cr e u * cr e v < 0 -> cr u v = 0 -> at_origin u v.
Proof.
  intros H G. destruct (@crossing_zero (cr e) (fun u v k => cr_along e u v k) u v H) as (k & K & Z).
  exists k. split; [exact K|]. symmetry. destruct (@parallel_zero u v k G) as [P1 P2].
  apply (@two_zero e u); [exact Z|exact P1|intros X; rewrite X in H; lra].
Qed.
(** both on one line through the origin, on opposite sides of it *)
Lemma dt_along e u v k : dt e (along u v k) = dt e u + k * (dt e v - dt e u).
Proof. unfold dt, along. cbn [fst snd]. ring. Qed.
Lemma cr_dt_zero e x : e <> (0, 0) -> cr e x = 0 -> dt e x = 0 -> x = (0, 0).
Proof.
  destruct e as [e1 e2], x as [x1 x2]. unfold cr, dt. cbn [fst snd]. intros N C D.
  assert (P : 0 < e1 * e1 + e2 * e2). { destruct (Req_dec e1 0) as [->|]; [|nra]. destruct (Req_dec e2 0) as [->|]; [congruence|nra]. }
  assert (A : (e1 * e1 + e2 * e2) * x1 = 0) by (replace ((e1 * e1 + e2 * e2) * x1) with (e1 * (e1 * x1 + e2 * x2) - e2 * (e1 * x2 - e2 * x1)) by ring; rewrite C, D; ring).
  assert (B : (e1 * e1 + e2 * e2) * x2 = 0) by (replace ((e1 * e1 + e2 * e2) * x2) with (e2 * (e1 * x1 + e2 * x2) + e1 * (e1 * x2 - e2 * x1)) by ring; rewrite C, D; ring).
  apply Rmult_integral in A, B. f_equal; [destruct A as [A|A]; [lra|exact A]|destruct B as [B|B]; [lra|exact B]].
Qed.
Lemma line_origin e u v : e <> (0, 0) -> cr e u = 0 -> cr e v = 0 -> dt e u * dt e v <= 0 -> at_origin u v.
Proof.
  intros N U V H. destruct (Req_dec (dt e u) 0) as [Zu|Nu].
  { exists 0. split; [lra|]. assert (u = (0, 0)) as -> by exact (cr_dt_zero N U Zu). unfold along. cbn [fst snd]. f_equal; ring. }
  destruct (Req_dec (dt e v) 0) as [Zv|Nv].
  { exists 1. split; [lra|]. assert (v = (0, 0)) as -> by exact (cr_dt_zero N V Zv). unfold along. cbn [fst snd]. f_equal; ring. }
  assert (H' : dt e u * dt e v < 0) by nra.
  destruct (@crossing_zero (dt e) (fun u v k => dt_along e u v k) u v H') as (k & K & Z).
  exists k. split; [exact K|]. symmetry. apply (@cr_dt_zero e); [exact N| |exact Z]. rewrite cr_along, U, V. ring.
Qed.
Lemma origin_left v : at_origin (0, 0) v.
Proof. exists 0. split; [lra|]. unfold along. cbn. f_equal; ring. Qed.
Lemma origin_right u : at_origin u (0, 0).
Proof. exists 1. split; [lra|]. unfold along. cbn. f_equal; ring. Qed.
(** a multiple of [e]: the sign of the factor is that of the product *)
Lemma factor e u : e <> (0, 0) -> cr e u = 0 -> exists k, u = (k * fst e, k * snd e) /\ sg (dt e u) = sg k.
Proof.
  destruct e as [e1 e2], u as [u1 u2]. unfold cr, dt. cbn [fst snd]. intros N C.
  assert (P : 0 < e1 * e1 + e2 * e2). { destruct (Req_dec e1 0) as [->|]; [|nra]. destruct (Req_dec e2 0) as [->|]; [congruence|nra]. }
  exists ((e1 * u1 + e2 * u2) / (e1 * e1 + e2 * e2)). split.
  - f_equal; apply (Rmult_eq_reg_r (e1 * e1 + e2 * e2)); try lra.
    + transitivity ((e1 * u1 + e2 * u2) * e1 - e2 * (e1 * u2 - e2 * u1)); [ring|]. rewrite C. field. lra.
    + transitivity ((e1 * u1 + e2 * u2) * e2 + e1 * (e1 * u2 - e2 * u1)); [ring|]. rewrite C. field. lra.
  - unfold Rdiv. rewrite sg_mul, (@sg_pos (/ _)) by (apply Rinv_0_lt_compat, P). lia.
Qed.
Lemma gap_edge e u v : e <> (0, 0) -> ~ at_origin u v ->
  (half e u v - half down u v)%Z =
  (gap (sg (cr down v)) (sg (dt down v)) (sg (cr e v)) (sg (dt e v)) (sg (cr down e)) (sg (dt down e)) -
   gap (sg (cr down u)) (sg (dt down u)) (sg (cr e u)) (sg (dt e u)) (sg (cr down e)) (sg (dt down e)))%Z.
Proof.
  intros Ne No. unfold half.
  assert (G := gap_check).
  assert (Nd : down <> (0, 0)) by (intros X; injection X; lra).
  apply all_elim with (x := sg (cr down u)) in G; [|apply sg_in]. apply all_elim with (x := sg (cr down v)) in G; [|apply sg_in].
  apply all_elim with (x := sg (dt down u)) in G; [|apply sg_in]. apply all_elim with (x := sg (dt down v)) in G; [|apply sg_in].
  apply all_elim with (x := sg (cr e u)) in G; [|apply sg_in]. apply all_elim with (x := sg (cr e v)) in G; [|apply sg_in].
  apply all_elim with (x := sg (dt e u)) in G; [|apply sg_in]. apply all_elim with (x := sg (dt e v)) in G; [|apply sg_in].
  apply all_elim with (x := sg (cr down e)) in G; [|apply sg_in]. apply all_elim with (x := sg (dt down e)) in G; [|apply sg_in].
  apply all_elim with (x := sg (cr u v)) in G; [|apply sg_in].
  apply Z.eqb_eq. apply (imp_elim _ G). clear G.
  assert (nz : forall x, x <> 0 -> negb (sg x =? 0)%Z = true) by (intros x H; rewrite negb_true_iff, Z.eqb_neq, sg0; exact H).
  assert (m1 : forall x y, (sg x * sg y =? -1)%Z = true -> x * y < 0) by (intros x y H; apply Z.eqb_eq in H; rewrite <- sg_mul in H; apply sgm, H).
  assert (z0 : forall x, (sg x =? 0)%Z = true -> x = 0) by (intros x H; apply Z.eqb_eq in H; apply sg0, H).
  assert (eqz : forall x y, x = y -> (sg x =? sg y)%Z = true) by (intros x y ->; apply Z.eqb_refl).
  assert (Nu : u <> (0, 0)) by (intros ->; apply No, origin_left). assert (Nv : v <> (0, 0)) by (intros ->; apply No, origin_right).
  assert (cd : forall x, cr down x = fst x) by (intros x; unfold cr, down; cbn [fst snd]; ring).
  assert (dd : forall x, dt down x = - snd x) by (intros x; unfold dt, down; cbn [fst snd]; ring).
  unfold consistent. rewrite <- !sg_mul, <- !sg_opp.
  repeat (apply andb_true_intro; split).
  - apply imp_intro. intros H. apply z0 in H. rewrite !cd, !dd in *.
    repeat (apply andb_true_intro; split); [apply eqz; unfold cr; rewrite H; ring|apply eqz; unfold cr; rewrite H; ring|].
    apply nz. intros X. apply Nu. destruct u as [u1 u2]. cbn [fst snd] in *. f_equal; lra.
  - apply imp_intro. intros H. apply z0 in H. rewrite !cd, !dd in *.
    repeat (apply andb_true_intro; split); [apply eqz; unfold cr; rewrite H; ring|apply eqz; unfold cr; rewrite H; ring|].
    apply nz. intros X. apply Nv. destruct v as [u1 u2]. cbn [fst snd] in *. f_equal; lra.
  - apply imp_intro. intros H. apply z0 in H. destruct (factor Ne H) as (k & Ek & Sk). rewrite !sg_mul, !Sk, <- !sg_mul.
    repeat (apply andb_true_intro; split); [apply eqz; rewrite Ek; unfold cr; cbn [fst snd]; ring|apply eqz; rewrite Ek; unfold cr; cbn [fst snd]; ring|].
    apply nz. intros ->. apply Nu. rewrite Ek. f_equal; ring.
  - apply imp_intro. intros H. apply z0 in H. destruct (factor Ne H) as (k & Ek & Sk). rewrite !sg_opp, !sg_mul, !Sk, <- !sg_mul, <- !sg_opp.
    repeat (apply andb_true_intro; split); [apply eqz; rewrite Ek; unfold cr; cbn [fst snd]; ring|apply eqz; rewrite Ek; unfold cr; cbn [fst snd]; ring|].
    apply nz. intros ->. apply Nv. rewrite Ek. f_equal; ring.
  - apply imp_intro. intros H. apply z0 in H. rewrite !sg_mul. apply andb_true_intro. split; apply negb_true_iff, not_true_iff_false; intros X; apply m1 in X; apply No; exact (@opposite_origin _ u v X H).
  - apply imp_intro. intros H. apply andb_prop in H. destruct H as [H1 H2]. apply z0 in H1, H2. apply Z.eqb_eq, sg1.
    destruct (Rle_or_lt (dt down u * dt down v) 0) as [X|X]; [|exact X]. exfalso. apply No. exact (line_origin Nd H1 H2 X).
  - apply imp_intro. intros H. apply andb_prop in H. destruct H as [H1 H2]. apply z0 in H1, H2. apply Z.eqb_eq, sg1.
    destruct (Rle_or_lt (dt e u * dt e v) 0) as [X|X]; [|exact X]. exfalso. apply No. exact (line_origin Ne H1 H2 X).
  - apply imp_intro. intros H. apply z0 in H. rewrite !cd, !dd in *.
    repeat (apply andb_true_intro; split).
    + apply eqz. unfold cr. rewrite H. ring.
    + apply eqz. unfold cr. rewrite H. ring.
    + apply nz. intros X. apply Ne. destruct e as [e1 e2]. cbn [fst snd] in *. f_equal; lra.
    + apply imp_intro. intros X. apply z0 in X. apply eqz. unfold dt. rewrite H. ring.
    + apply imp_intro. intros X. apply z0 in X. apply eqz. unfold dt. rewrite H. ring.
  - apply okz_sum. unfold cr, down. cbn [fst snd]. ring.
Qed.
