(** Proofs about level outlines (C94, C95): boxes, moves, coordinates. *)
From Coq Require Import Reals Lra Lia Psatz Permutation.
From Verif Require Import Lib NumReal LevelModel Spec_Post Spec_Geo Pf_Geo Outline Spec_Outline Pf_Wind Pf_Outline Pf_Outline2.
Set Implicit Arguments.
Local Open Scope R_scope.
Local Open Scope list_scope.

(** ** Smallest boxes *)
Definition rx_box (b : pt * pt) : box RX := mkBox (rx_pt (fst b)) (rx_pt (snd b)).
Definition rexpand (b : pt * pt) (p : pt) : pt * pt :=
  ((Rmin (fst p) (fst (fst b)), Rmin (snd p) (snd (fst b))), (Rmax (fst p) (fst (snd b)), Rmax (snd p) (snd (snd b)))).
Lemma expand_real b p : expand (rx_box b) (rx_pt p) = rx_box (rexpand b p).
Proof.
  unfold expand, rx_box, rexpand, rx_pt. cbn [px py bmin bmax fst snd]. rewrite !rx_ltb.
  repeat match goal with |- context [Rltb ?x ?y] => let H := fresh in destruct (Rltb x y) eqn:H; [apply Rltb_true in H|apply Rltb_false in H] end;
  repeat first [rewrite Rmin_left by lra | rewrite Rmin_right by lra]; repeat first [rewrite Rmax_left by lra | rewrite Rmax_right by lra]; reflexivity.
Qed.
Definition ordered (b : pt * pt) : Prop := fst (fst b) <= fst (snd b) /\ snd (fst b) <= snd (snd b).
Lemma box_mono b c p : in_rbox c (fst b) -> in_rbox c (snd b) -> in_rbox b p -> in_rbox c p.
Proof. unfold in_rbox. lra. Qed.
Lemma least_ext b ps qs : (forall p, In p ps <-> In p qs) -> least_box b ps -> least_box b qs.
Proof.
  intros E [H1 H2]. split; [intros p Hp; apply H1, E, Hp|]. intros c Hc. apply H2. intros p Hp. apply Hc, E, Hp.
Qed.
Lemma least_ordered b p ps : least_box b (p :: ps) -> ordered b.
Proof. intros [H _]. specialize (H p (or_introl eq_refl)). unfold in_rbox, ordered in *. lra. Qed.
Lemma least_expand b p ps : ordered b -> least_box b ps -> least_box (rexpand b p) (p :: ps).
Proof.
  intros O [H1 H2]. split.
  - intros q [<-|Hq].
    + unfold in_rbox, rexpand. cbn [fst snd]. split; (split; [apply Rmin_l|apply Rmax_l]).
    + specialize (H1 q Hq). unfold in_rbox, rexpand in *. cbn [fst snd] in *.
      assert (A := Rmin_r (fst p) (fst (fst b))). assert (B := Rmin_r (snd p) (snd (fst b))).
      assert (C := Rmax_r (fst p) (fst (snd b))). assert (D := Rmax_r (snd p) (snd (snd b))). lra.
  - intros c Hc. assert (P : in_rbox c p) by (apply Hc; left; reflexivity).
    destruct (H2 c) as [L U]; [intros q Hq; apply Hc; right; exact Hq|].
    unfold in_rbox, rexpand, ordered in *. cbn [fst snd] in *.
    unfold Rmin, Rmax. repeat match goal with |- context [Rle_dec ?x ?y] => destruct (Rle_dec x y) end; lra.
Qed.
Lemma least_one p : least_box (p, p) [p].
Proof. split; [intros q [<-|[]]; unfold in_rbox; cbn; lra|]. intros c Hc. cbn. split; apply Hc; left; reflexivity. Qed.
Lemma rexpand_ordered b p : ordered b -> ordered (rexpand b p).
Proof.
  unfold ordered, rexpand. cbn [fst snd]. intros [H1 H2]. unfold Rmin, Rmax.
  repeat match goal with |- context [Rle_dec ?x ?y] => destruct (Rle_dec x y) end; lra.
Qed.
Lemma env_real a r : exists b, env_ring (rx_ring (a :: r)) = Some (rx_box b) /\ ordered b /\ least_box b (a :: r).
Proof.
  unfold env_ring, rx_ring. cbn [map].
  assert (G : forall r b ps, ordered b -> least_box b ps -> exists b', fold_left expand (map rx_pt r) (rx_box b) = rx_box b' /\ ordered b' /\ least_box b' (r ++ ps)).
  { clear. induction r as [|x r IH]; intros b ps O L; [exists b; auto|]. cbn [map fold_left]. rewrite expand_real.
    destruct (IH (rexpand b x) (x :: ps) (rexpand_ordered x O) (least_expand x O L)) as (b' & E & O' & L'). exists b'. split; [exact E|]. split; [exact O'|].
    apply (least_ext (ps := r ++ x :: ps)); [|exact L']. intros p. cbn [app In]. rewrite !in_app_iff. cbn [In]. tauto. }
  destruct (G r (a, a) [a]) as (b & E & O & L); [unfold ordered; cbn; lra|apply least_one|]. exists b. split; [unfold rx_box at 1 in E; cbn [fst snd] in E; rewrite E; reflexivity|].
  split; [exact O|]. apply (least_ext (ps := r ++ [a])); [|exact L]. intros p. rewrite in_app_iff. cbn [In]. tauto.
Qed.
Lemma join_real b c ps qs : ordered b -> least_box b ps -> least_box c qs -> ordered c ->
  exists d, env_join (Some (rx_box b)) (Some (rx_box c)) = Some (rx_box d) /\ ordered d /\ least_box d (ps ++ qs).
Proof.
  intros O L M Oc. exists (rexpand (rexpand b (fst c)) (snd c)). split; [cbn [env_join]; change (bmin (rx_box c)) with (rx_pt (fst c)); change (bmax (rx_box c)) with (rx_pt (snd c)); rewrite !expand_real; reflexivity|].
  assert (O1 := rexpand_ordered (fst c) O). assert (O2 := rexpand_ordered (snd c) O1). split; [exact O2|].
  destruct (least_expand (snd c) O1 (least_expand (fst c) O L)) as [H1 H2]. destruct M as [M1 M2]. split.
  - intros p Hp. apply in_app_or in Hp. destruct Hp as [Hp|Hp]; [apply H1; right; right; exact Hp|].
    apply (@box_mono c); [apply H1; right; left; reflexivity|apply H1; left; reflexivity|apply M1, Hp].
  - intros d Hd. apply H2. destruct (M2 d) as [X Y]; [intros p Hp; apply Hd, in_or_app; right; exact Hp|].
    intros p [<-|[<-|Hp]]; [exact Y|exact X|]. apply Hd, in_or_app. left. exact Hp.
Qed.
(** the points of a corrected ring are those drawn *)
Lemma close_members r : exists c, close_ring (rx_ring r) = rx_ring c /\ forall p, In p c <-> In p r.
Proof.
  destruct r as [|a [|b [|d r]]]; try (eexists; split; [reflexivity|tauto]). unfold close_ring, rx_ring. cbn [map].
  destruct (same_xy _ _); [exists (a :: b :: d :: r); split; [reflexivity|tauto]|]. exists ((a :: b :: d :: r) ++ [a]). split; [rewrite map_app; reflexivity|].
  intros p. rewrite in_app_iff. cbn [In]. tauto.
Qed.
Lemma correct_members r : exists c, correct_outer (rx_ring r) = rx_ring c /\ forall p, In p c <-> In p r.
Proof.
  destruct (close_members r) as (c & E & H). unfold correct_outer. rewrite E. destruct (_ <! _); [|exists c; auto].
  exists (rev c). split; [unfold rx_ring; rewrite map_rev; reflexivity|]. intros p. rewrite <- in_rev. apply H.
Qed.
Lemma shape_rx s : shape_of (rx_poly s) = rx_shape s.
Proof.
  destruct s as [o hs]. unfold shape_of, rx_poly, rx_shape, rx_ring. cbn [py_outer py_inners fst snd]. f_equal.
  - rewrite map_map. reflexivity.
  - rewrite map_map. apply map_ext. intros h. rewrite map_map. reflexivity.
Qed.
Theorem geometry_box ss : ss <> [] -> Forall (fun s => fst s <> []) ss ->
  exists b, snd (get_geometry (map rx_poly ss)) = rx_box b /\ ordered b /\ least_box b (outline ss).
Proof.
  intros N H. unfold get_geometry. cbn [snd]. rewrite map_map.
  assert (E : map (fun s => correct_shape (shape_of (rx_poly s))) ss = map (fun s => correct_shape (rx_shape s)) ss) by (apply map_ext; intros s; rewrite shape_rx; reflexivity).
  rewrite E. clear E. unfold envelope.
  assert (One : forall s, fst s <> [] -> exists b, env_shape (correct_shape (rx_shape s)) = Some (rx_box b) /\ ordered b /\ least_box b (fst s)).
  { intros [o hs] Ho. cbn [fst] in *. unfold env_shape, correct_shape, rx_shape. cbn [sh_outer fst snd]. destruct (correct_members o) as (c & -> & Hc).
    destruct c as [|a c]; [destruct o as [|x o]; [congruence|]; destruct (proj2 (Hc x) (or_introl eq_refl))|].
    destruct (env_real a c) as (b & Eb & O & L). exists b. split; [exact Eb|]. split; [exact O|]. exact (least_ext _ Hc L). }
  assert (G : forall ss b ps, Forall (fun s => fst s <> []) ss -> ordered b -> least_box b ps ->
    exists b', fold_left (fun x s => env_join x (env_shape s)) (map (fun s => correct_shape (rx_shape s)) ss) (Some (rx_box b)) = Some (rx_box b') /\ ordered b' /\ least_box b' (ps ++ outline ss)).
  { clear - One. induction ss as [|s ss IH]; intros b ps H O L; [exists b; unfold outline; cbn; rewrite app_nil_r; auto|].
    inversion H; subst. destruct (One s H2) as (c & Ec & Oc & Lc). cbn [map fold_left]. rewrite Ec.
    destruct (join_real O L Lc Oc) as (d & Ed & Od & Ld). rewrite Ed. destruct (IH d _ H3 Od Ld) as (b' & E' & O' & L').
    exists b'. split; [exact E'|]. split; [exact O'|]. unfold outline in *. cbn [map List.concat]. rewrite app_assoc. exact L'. }
  destruct ss as [|s ss]; [congruence|]. inversion H; subst. destruct (One s H2) as (c & Ec & Oc & Lc).
  cbn [map fold_left]. rewrite Ec. cbn [env_join]. destruct (G ss c (fst s) H3 Oc Lc) as (b & -> & O & L). exists b. auto.
Qed.

(** ** Rings lie in their boxes *)
Lemma on_segment_box b a c p : in_rbox b a -> in_rbox b c -> on_segment p a c -> in_rbox b p.
Proof. intros A C (k & K & ->). unfold in_rbox, along in *. cbn [fst snd]. nra. Qed.
Lemma on_ring_box b r p : (forall a, In a r -> in_rbox b a) -> on_ring r p -> in_rbox b p.
Proof. intros H (x & y & E & S). apply edge_in in E. apply (on_segment_box (a := x) (c := y)); try apply H; tauto. Qed.
Lemma no_crossings p e : forall a r, (forall x y s k, edge (a :: r) x y -> 0 < s -> 0 <= k <= 1 -> along x y k <> ray p e s) -> crossings p e (a :: r) 0.
Proof.
  intros a r. revert a. induction r as [|b r IH]; intros a H; [constructor|]. change 0%Z with (0 + 0)%Z. constructor.
  - apply cr_none. intros s k. apply H, edge_cons.
  - apply IH. intros x y s k E. apply H, edge_tl, E.
Qed.
Theorem encloses_box b r p : closed r -> (forall a, In a r -> in_rbox b a) -> encloses r p -> in_rbox b p.
Proof.
  intros C H E. assert (N := encloses_off E).
  assert (G : forall e, e <> (0, 0) -> (forall q s, in_rbox b q -> 0 < s -> q <> ray p e s) -> False).
  { intros e Ne Hq. assert (F : free_ray r p e) by (split; [exact Ne|intros a s Ha; apply Hq, H, Ha]).
    assert (X : crossings p e r 0). { destruct C as (_ & a & m & ->). apply no_crossings. intros x y s k Exy S K. apply Hq; [|exact S].
      apply edge_in in Exy. apply (on_segment_box (a := x) (c := y)); [apply H, Exy|apply H, Exy|]. exists k. auto. }
    apply (any_ray C N F X) in E. congruence. }
  assert (Q : forall e q s, q = ray p e s -> fst q = fst p + s * fst e /\ snd q = snd p + s * snd e) by (intros e q s ->; auto).
  unfold in_rbox. repeat split; match goal with |- ?x <= ?y => destruct (Rle_or_lt x y) as [L|L]; [exact L|exfalso] end.
  - apply (G (-1, 0)); [intros X; injection X; lra|]. intros q s Hb S Eq. apply Q in Eq. unfold in_rbox in Hb. cbn [fst snd] in Eq. lra.
  - apply (G (1, 0)); [intros X; injection X; lra|]. intros q s Hb S Eq. apply Q in Eq. unfold in_rbox in Hb. cbn [fst snd] in Eq. lra.
  - apply (G (0, -1)); [intros X; injection X; lra|]. intros q s Hb S Eq. apply Q in Eq. unfold in_rbox in Hb. cbn [fst snd] in Eq. lra.
  - apply (G (0, 1)); [intros X; injection X; lra|]. intros q s Hb S Eq. apply Q in Eq. unfold in_rbox in Hb. cbn [fst snd] in Eq. lra.
Qed.
Lemma in_shape_box b s p : closed_shape s -> (forall a, In a (fst s) -> in_rbox b a) -> in_shape s p -> in_rbox b p.
Proof. intros [C _] H [O|[E _]]; [exact (on_ring_box H O)|exact (encloses_box C H E)]. Qed.

(** ** Moving without touching *)
Lemma half_move e u v : e <> (0, 0) ->
  (forall k l, 0 <= k <= 1 -> 0 <= l <= 1 -> (k * fst e, k * snd e) <> along u v l) ->
  half e u v = half e (vsub u e) (vsub v e).
Proof.
  intros Ne H.
  assert (P : 0 < dt e e). { unfold dt. destruct e as [e1 e2]. cbn [fst snd]. destruct (Req_dec e1 0) as [->|]; [|nra]. destruct (Req_dec e2 0) as [->|]; [congruence|nra]. }
  assert (Cu : cr e (vsub u e) = cr e u) by (unfold cr, vsub; cbn [fst snd]; ring).
  assert (Cv : cr e (vsub v e) = cr e v) by (unfold cr, vsub; cbn [fst snd]; ring).
  assert (Du : dt e (vsub u e) = dt e u - dt e e) by (unfold dt, vsub; cbn [fst snd]; ring).
  assert (Dv : dt e (vsub v e) = dt e v - dt e e) by (unfold dt, vsub; cbn [fst snd]; ring).
  assert (G : cr (vsub u e) (vsub v e) = cr u v - (cr e v - cr e u)) by (unfold cr, vsub; cbn [fst snd]; ring).
  assert (Fac : forall x, cr e x = 0 -> 0 <= dt e x <= dt e e -> exists k, 0 <= k <= 1 /\ x = (k * fst e, k * snd e)).
  { intros x Hc Hd. exists (dt e x / dt e e). split.
    - split; [apply Rmult_le_pos; [lra|apply Rlt_le, Rinv_0_lt_compat, P]|]. apply (Rmult_le_reg_r (dt e e)); [exact P|]. unfold Rdiv. rewrite Rmult_assoc, Rinv_l by lra. lra.
    - destruct (factor Ne Hc) as (k & -> & _). unfold dt in *. cbn [fst snd] in *. f_equal; field; lra. }
  unfold half. rewrite Cu, Cv, Du, Dv, G. unfold halfz.
  destruct (sg (cr e u) =? 0)%Z eqn:Zu.
  { apply Z.eqb_eq, sg0 in Zu. destruct (sg (cr e v) =? 0)%Z; [reflexivity|].
    destruct (sg_case (dt e u)) as [[A ->]|[[A ->]|[A ->]]]; destruct (sg_case (dt e u - dt e e)) as [[B ->]|[[B ->]|[B ->]]]; try reflexivity; exfalso; try lra;
      (destruct (Fac u Zu) as (k & K & E); [lra|]; apply (H k 0 K ltac:(lra)); rewrite <- E; unfold along; destruct u; cbn [fst snd]; f_equal; ring). }
  destruct (sg (cr e v) =? 0)%Z eqn:Zv.
  { apply Z.eqb_eq, sg0 in Zv.
    destruct (sg_case (dt e v)) as [[A ->]|[[A ->]|[A ->]]]; destruct (sg_case (dt e v - dt e e)) as [[B ->]|[[B ->]|[B ->]]]; try reflexivity; exfalso; try lra;
      (destruct (Fac v Zv) as (k & K & E); [lra|]; apply (H k 1 K ltac:(lra)); rewrite <- E; unfold along; destruct v; cbn [fst snd]; f_equal; ring). }
  destruct (sg (cr e u) =? sg (cr e v))%Z eqn:X; [reflexivity|].
  apply Z.eqb_neq in Zu, Zv, X.
  assert (Op : cr e u * cr e v < 0). { destruct (sg_case (cr e u)) as [[U Su]|[[U Su]|[U Su]]]; destruct (sg_case (cr e v)) as [[V Sv]|[[V Sv]|[V Sv]]]; rewrite Su, Sv in *; try lia; nra. }
  destruct (between_zero Op) as [K N]. set (l := cr e u / (cr e u - cr e v)) in *.
  assert (Z : cr e (along u v l) = 0) by (rewrite cr_along; unfold l; field; exact N).
  destruct (factor Ne Z) as (s & E & _).
  assert (Y := @along_cr_side _ _ _ _ _ E).
  assert (Sc : cr u v = s * (cr e v - cr e u)).
  { assert (l * cr u v = l * (s * (cr e v - cr e u))) as W; [|apply Rmult_eq_reg_l in W; [exact W|]].
    - rewrite Y. unfold l. field. exact N.
    - unfold l, Rdiv. apply Rmult_integral_contrapositive_currified; [intros W2; rewrite W2 in Op; lra|apply Rinv_neq_0_compat, N]. }
  assert (Hs : ~ (0 <= s <= 1)) by (intros Hs; apply (H s l Hs K); symmetry; exact E).
  replace (cr u v - (cr e v - cr e u)) with ((s - 1) * (cr e v - cr e u)) by (rewrite Sc; ring). rewrite Sc, !sg_mul.
  assert (sg s = sg (s - 1)) as ->; [|reflexivity].
  destruct (Rlt_or_le s 0); [rewrite !sg_neg by lra; reflexivity|]. rewrite !sg_pos by lra. reflexivity.
Qed.
Lemma along_vsub_pq p q k : along p q k = (fst p + k * fst (vsub q p), snd p + k * snd (vsub q p)).
Proof. reflexivity. Qed.
Lemma wsum_move p q r : vsub q p <> (0, 0) -> apart r p q -> wsum (vsub q p) p r = wsum (vsub q p) q r.
Proof.
  intros Ne. induction r as [|a [|b t] IH]; intros H; [reflexivity|reflexivity|]. rewrite !wsum_cons. f_equal.
  - assert (E : forall x, vsub x q = vsub (vsub x p) (vsub q p)) by (intros x; unfold vsub; cbn [fst snd]; f_equal; ring).
    rewrite (E a), (E b). apply half_move; [exact Ne|]. intros k l K L X. apply (H a b k l (edge_cons a b t) K L).
    rewrite vsub_along in X. rewrite along_vsub_pq. destruct (along a b l) as [x y]. unfold vsub in *. cbn [fst snd] in *. injection X as X1 X2. f_equal; lra.
  - apply IH. intros x y k l Exy. apply H, edge_tl, Exy.
Qed.
Lemma along_0 p q : along p q 0 = p. Proof. unfold along. destruct p. cbn [fst snd]. f_equal; ring. Qed.
Lemma along_1 p q : along p q 1 = q. Proof. unfold along. destruct p, q. cbn [fst snd]. f_equal; ring. Qed.
Theorem code_move r p q : closed r -> apart r p q -> rcode p r = rcode q r.
Proof.
  intros C H.
  assert (Np : ~ on_ring r p). { intros (a & b & E & k & K & X). apply (H a b 0 k E ltac:(lra) K). rewrite along_0. exact X. }
  assert (Nq : ~ on_ring r q). { intros (a & b & E & k & K & X). apply (H a b 1 k E ltac:(lra) K). rewrite along_1. exact X. }
  destruct (Req_dec (fst p) (fst q)) as [E1|E1]; [destruct (Req_dec (snd p) (snd q)) as [E2|E2]|].
  - replace q with p by (destruct p, q; cbn [fst snd] in *; congruence). reflexivity.
  - assert (Ne : vsub q p <> (0, 0)) by (unfold vsub; intros X; injection X; lra).
    apply code_same; [exact C|exact C|tauto|]. intros _. rewrite <- (wsum_dir Ne C Np), <- (wsum_dir Ne C Nq), (wsum_move Ne H). tauto.
  - assert (Ne : vsub q p <> (0, 0)) by (unfold vsub; intros X; injection X; lra).
    apply code_same; [exact C|exact C|tauto|]. intros _. rewrite <- (wsum_dir Ne C Np), <- (wsum_dir Ne C Nq), (wsum_move Ne H). tauto.
Qed.
Lemma scode_move s p q : closed_shape s -> apart (fst s) p q -> Forall (fun h => apart h p q) (snd s) -> scode p s = scode q s.
Proof.
  intros [C H] A F. rewrite !scode_eq, (code_move C A).
  assert (E : map (rcode p) (snd s) = map (rcode q) (snd s)); [|rewrite E; reflexivity].
  apply map_ext_in. intros h I. apply code_move; [exact (proj1 (Forall_forall _ _) H h I)|exact (proj1 (Forall_forall _ _) F h I)].
Qed.
