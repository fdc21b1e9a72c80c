(** Proofs about level outlines (C94, C95): rings as drawn, polygons, boxes. *)
From Coq Require Import Reals Lra Lia Psatz Permutation.
From Verif Require Import Lib NumReal LevelModel Spec_Post Spec_Geo Pf_Geo Outline Spec_Outline Pf_Wind Pf_Outline.
Set Implicit Arguments.
Local Open Scope R_scope.
Local Open Scope list_scope.

Definition rcode (p : pt) (r : list pt) : Z := ring_code (rx_pt p) (rx_ring r).
Lemma down_nz : down <> (0, 0). Proof. intros X; injection X; lra. Qed.

(** ** Inside, on and outside *)
Theorem any_ray r p e n : closed r -> ~ on_ring r p -> free_ray r p e -> crossings p e r n -> (encloses r p <-> n <> 0%Z).
Proof.
  intros C H F X. assert (W := wsum_crossings (proj1 F) X). rewrite (wsum_dir (proj1 F) C H) in W.
  split.
  - intros (_ & e' & n' & F' & X' & N). assert (W' := wsum_crossings (proj1 F') X'). rewrite (wsum_dir (proj1 F') C H) in W'. lia.
  - intros N. split; [exact H|]. exists e, n. auto.
Qed.
Lemma crossings_exist r p : closed r -> exists e n, free_ray r p e /\ crossings p e r n.
Proof.
  intros (_ & a & m & ->). destruct (free_ray_exists (a :: m ++ [a]) p) as [e F]. destruct (crossings_total F) as [n X]. eauto.
Qed.
Lemma encloses_wsum r p : closed r -> ~ on_ring r p -> (encloses r p <-> wsum down p r <> 0%Z).
Proof.
  intros C H. destruct (crossings_exist p C) as (e & n & F & X). rewrite (any_ray C H F X).
  assert (W := wsum_crossings (proj1 F) X). rewrite (wsum_dir (proj1 F) C H) in W. lia.
Qed.
Theorem code_spec r p : closed r ->
  (on_ring r p /\ rcode p r = 0%Z) \/ (encloses r p /\ rcode p r = 1%Z) \/ (~ on_ring r p /\ ~ encloses r p /\ rcode p r = (-1)%Z).
Proof.
  intros C. unfold rcode, ring_code. assert (L : (List.length (rx_ring r) <? 4)%nat = false).
  { apply Nat.ltb_ge. unfold rx_ring. rewrite map_length. apply C. }
  rewrite L. fold (rwind p r 0). destruct (winding_real p r 0) as [[H ->]|[H ->]]; [left; auto|right].
  assert (E := encloses_wsum C H). rewrite Z.add_0_l. destruct (wsum down p r =? 0)%Z eqn:Z.
  - apply Z.eqb_eq in Z. right. split; [exact H|]. split; [rewrite E; lia|reflexivity].
  - apply Z.eqb_neq in Z. left. split; [apply E, Z|reflexivity].
Qed.
Lemma encloses_off r p : encloses r p -> ~ on_ring r p.
Proof. intros [H _]. exact H. Qed.
(** two rings that agree on being on and inside have one code *)
Lemma code_same r r' p p' : closed r -> closed r' -> (on_ring r p <-> on_ring r' p') ->
  (~ on_ring r p -> (wsum down p r = 0%Z <-> wsum down p' r' = 0%Z)) -> rcode p r = rcode p' r'.
Proof.
  intros C C' O W.
  destruct (code_spec p C) as [[H ->]|[[H ->]|(H & H' & ->)]]; destruct (code_spec p' C') as [[K ->]|[[K ->]|(K & K' & ->)]]; try reflexivity; exfalso.
  - apply (encloses_off K), O, H.
  - apply K, O, H.
  - apply (encloses_off H), O, K.
  - assert (N := encloses_off H). apply (encloses_wsum C N) in H. apply K'. apply (encloses_wsum C' K). rewrite <- (W N). exact H.
  - apply H, O, K.
  - assert (N := encloses_off K). apply (encloses_wsum C' N) in K. apply H'. apply (encloses_wsum C H). rewrite (W H). exact K.
Qed.

(** ** Reversing and rotating *)
Lemma half_check : all_signs (fun D => all_signs (fun B => all_signs (fun k => all_signs (fun m => all_signs (fun G =>
  (halfz B D m k (- G) =? - halfz D B k m G)%Z))))) = true.
Proof. vm_compute. reflexivity. Qed.
Lemma cr_anti u v : cr v u = - cr u v.
Proof. unfold cr. ring. Qed.
Lemma half_swap e u v : half e v u = (- half e u v)%Z.
Proof.
  unfold half. rewrite (cr_anti u v), sg_opp. apply Z.eqb_eq. assert (G := half_check).
  apply all_elim with (x := sg (cr e u)) in G; [|apply sg_in]. apply all_elim with (x := sg (cr e v)) in G; [|apply sg_in].
  apply all_elim with (x := sg (dt e u)) in G; [|apply sg_in]. apply all_elim with (x := sg (dt e v)) in G; [|apply sg_in].
  apply all_elim with (x := sg (cr u v)) in G; [|apply sg_in]. exact G.
Qed.
Lemma wsum_split e p l1 a l2 : wsum e p (l1 ++ a :: l2) = (wsum e p (l1 ++ [a]) + wsum e p (a :: l2))%Z.
Proof.
  induction l1 as [|b [|c l1] IH].
  - cbn [app]. change (wsum e p [a]) with 0%Z. lia.
  - cbn [app]. rewrite !wsum_cons. change (wsum e p [a]) with 0%Z. lia.
  - cbn [app] in *. rewrite !wsum_cons, IH. lia.
Qed.
Lemma wsum_rev e p r : wsum e p (rev r) = (- wsum e p r)%Z.
Proof.
  induction r as [|a [|b t] IH]; [reflexivity|reflexivity|].
  cbn [rev] in *. rewrite <- app_assoc. cbn [app]. rewrite wsum_split, IH, !wsum_cons. change (wsum e p [a]) with 0%Z.
  rewrite (half_swap e (vsub a p) (vsub b p)). lia.
Qed.
Lemma on_segment_swap p a b : on_segment p a b -> on_segment p b a.
Proof. intros (k & K & ->). exists (1 - k). split; [lra|]. unfold along. f_equal; ring. Qed.
Lemma edge_rev r a b : edge r a b -> edge (rev r) b a.
Proof. intros (l1 & l2 & ->). exists (rev l2), (rev l1). rewrite rev_app_distr. cbn [rev]. rewrite <- !app_assoc. reflexivity. Qed.
Lemma on_ring_rev r p : on_ring (rev r) p <-> on_ring r p.
Proof.
  split; intros (a & b & Hab & S).
  - apply edge_rev in Hab. rewrite rev_involutive in Hab. exists b, a. split; [exact Hab|apply on_segment_swap, S].
  - exists b, a. split; [apply edge_rev, Hab|apply on_segment_swap, S].
Qed.
Lemma closed_rev r : closed r -> closed (rev r).
Proof.
  intros (L & a & m & ->). split; [rewrite rev_length; exact L|]. exists a, (rev m). cbn [rev]. rewrite rev_app_distr. reflexivity.
Qed.
Lemma code_rev r p : closed r -> rcode p (rev r) = rcode p r.
Proof.
  intros C. apply code_same; [apply closed_rev, C|exact C|apply on_ring_rev|]. intros _. rewrite wsum_rev. lia.
Qed.
Lemma on_ring_split l1 a l2 p : on_ring (l1 ++ a :: l2) p <-> on_ring (l1 ++ [a]) p \/ on_ring (a :: l2) p.
Proof.
  induction l1 as [|b [|c l1] IH].
  - cbn [app]. split; [auto|]. intros [H|H]; [destruct (on_ring_one H)|exact H].
  - cbn [app]. rewrite !on_ring_cons. split; [tauto|]. intros [[H|H]|H]; [auto|destruct (on_ring_one H)|auto].
  - cbn [app] in *. rewrite !on_ring_cons, IH. tauto.
Qed.
Theorem code_rotate a m b n p : closed (a :: m ++ b :: n ++ [a]) -> rcode p (b :: n ++ a :: m ++ [b]) = rcode p (a :: m ++ b :: n ++ [a]).
Proof.
  intros C.
  assert (C' : closed (b :: n ++ a :: m ++ [b])).
  { split; [|exists b, (n ++ a :: m); rewrite <- app_assoc; reflexivity]. destruct C as [L _]. cbn [List.length] in *. rewrite !app_length in *. cbn [List.length] in *. rewrite !app_length in *. cbn [List.length] in *. lia. }
  assert (E1 : a :: m ++ b :: n ++ [a] = (a :: m) ++ b :: (n ++ [a])) by reflexivity.
  assert (E2 : b :: n ++ a :: m ++ [b] = (b :: n) ++ a :: (m ++ [b])) by reflexivity.
  apply code_same; [exact C'|exact C| |].
  - rewrite E1, E2, (on_ring_split (a :: m) b (n ++ [a])), (on_ring_split (b :: n) a (m ++ [b])). cbn [app]. tauto.
  - intros _. rewrite E1, E2, (wsum_split down p (a :: m) b (n ++ [a])), (wsum_split down p (b :: n) a (m ++ [b])). cbn [app]. lia.
Qed.

(** ** Rings as drawn *)
Lemma same_xy_real a b : same_xy (rx_pt a) (rx_pt b) = true <-> a = b.
Proof.
  unfold same_xy, rx_pt. cbn [px py]. rewrite !rx_eqb. destruct a as [a1 a2], b as [b1 b2]. cbn [fst snd]. split.
  - intros H. apply andb_prop in H. destruct H as [H1 H2]. apply Reqb_true in H1, H2. congruence.
  - intros H. injection H as -> ->. apply andb_true_intro. split; apply Reqb_true; reflexivity.
Qed.
Lemma last_map {A B} (f : A -> B) l d : last (map f l) (f d) = f (last l d).
Proof. induction l as [|x [|y l] IH]; [reflexivity|reflexivity|]. exact IH. Qed.
Lemma last_cons {A} (a : A) m d : last (a :: m) d = last m a.
Proof. revert a d. induction m as [|b m IH]; intros a d; [reflexivity|]. change (last (a :: b :: m) d) with (last (b :: m) d). rewrite IH. symmetry. apply IH. Qed.
Lemma close_drawn r c : drawn r c -> close_ring (rx_ring r) = rx_ring c.
Proof.
  intros [(L & a & m & Ec) [->|(b & n & -> & N & Ed)]].
  - subst c. unfold close_ring, rx_ring. cbn [map]. cbn [List.length] in L. rewrite app_length in L. cbn [List.length] in L.
    destruct m as [|x [|y m]]; [cbn in L; lia|cbn in L; lia|]. cbn [app map].
    match goal with |- (if same_xy _ (last ?l _) then _ else _) = _ => assert (E : last l (rx_pt a) = rx_pt a) end.
    { change (rx_pt a :: rx_pt x :: rx_pt y :: map rx_pt (m ++ [a])) with (map rx_pt ((a :: x :: y :: m) ++ [a])). rewrite last_map, last_last. reflexivity. }
    rewrite E, (proj2 (same_xy_real a a) eq_refl). reflexivity.
  - assert (L2 : (3 <= List.length (b :: n))%nat) by (rewrite Ed in L; rewrite app_length in L; cbn [List.length] in *; lia).
    destruct n as [|x [|y n]]; [cbn in L2; lia|cbn in L2; lia|]. unfold close_ring, rx_ring. cbn [map].
    match goal with |- (if same_xy _ (last ?l _) then _ else _) = _ => assert (E : last l (rx_pt b) = rx_pt (last (x :: y :: n) b)) end.
    { change (rx_pt b :: rx_pt x :: rx_pt y :: map rx_pt n) with (map rx_pt (b :: x :: y :: n)). rewrite last_map, last_cons. reflexivity. }
    rewrite E. assert (X : same_xy (rx_pt b) (rx_pt (last (x :: y :: n) b)) = false) by (apply not_true_iff_false; rewrite same_xy_real; congruence).
    rewrite X, Ed, map_app. reflexivity.
Qed.
(** a ring and its reverse *)
Definition like (c c' : list pt) : Prop := c' = c \/ c' = rev c.
Lemma like_trans c c' c'' : like c c' -> like c' c'' -> like c c''.
Proof. unfold like. intros [-> | ->] [-> | ->]; rewrite ?rev_involutive; auto. Qed.
Lemma like_closed c c' : closed c -> like c c' -> closed c'.
Proof. intros C [-> | ->]; [exact C|apply closed_rev, C]. Qed.
Lemma like_code c c' p : closed c -> like c c' -> rcode p c' = rcode p c.
Proof. intros C [-> | ->]; [reflexivity|apply code_rev, C]. Qed.
Lemma like_map f c c' : like c c' -> like (map f c) (map f c').
Proof. intros [-> | ->]; [left; reflexivity|right; apply map_rev]. Qed.
Lemma correct_outer_like r c : drawn r c -> exists c', correct_outer (rx_ring r) = rx_ring c' /\ like c c'.
Proof.
  intros D. unfold correct_outer. rewrite (close_drawn D). destruct (_ <! _); [exists (rev c); split; [unfold rx_ring; rewrite map_rev; reflexivity|right; reflexivity]|exists c; split; [reflexivity|left; reflexivity]].
Qed.
Lemma correct_inner_like r c : drawn r c -> exists c', correct_inner (rx_ring r) = rx_ring c' /\ like c c'.
Proof.
  intros D. unfold correct_inner. rewrite (close_drawn D). destruct (_ <! _); [exists (rev c); split; [unfold rx_ring; rewrite map_rev; reflexivity|right; reflexivity]|exists c; split; [reflexivity|left; reflexivity]].
Qed.
Lemma drawn_closed c : closed c -> drawn c c.
Proof. intros C. split; [exact C|left; reflexivity]. Qed.

(** shapes whose rings are alike *)
Definition alike (s s' : rshape) : Prop := like (fst s) (fst s') /\ Forall2 like (snd s) (snd s').
Definition closed_shape (s : rshape) : Prop := closed (fst s) /\ Forall closed (snd s).
Lemma Forall2_exists {A B} (P : A -> B -> Prop) l : (forall x, In x l -> exists y, P x y) -> exists l', Forall2 P l l'.
Proof.
  induction l as [|x l IH]; intros H; [exists []; constructor|]. destruct (H x (or_introl eq_refl)) as [y Hy].
  destruct IH as [l' Hl]; [intros z Hz; apply H; right; exact Hz|]. exists (y :: l'). constructor; assumption.
Qed.
Lemma correct_alike s c : drawn_shape s c -> exists c', correct_shape (rx_shape s) = rx_shape c' /\ alike c c'.
Proof.
  intros [D1 D2]. destruct s as [o hs], c as [co ch]. cbn [fst snd] in *. unfold correct_shape, rx_shape. cbn [fst snd sh_outer sh_inners].
  destruct (correct_outer_like D1) as (o' & E & L).
  assert (H : exists ch', map correct_inner (map rx_ring hs) = map rx_ring ch' /\ Forall2 like ch ch').
  { clear - D2. induction D2 as [|h c hs ch Dh _ (ch' & E & F)]; [exists []; split; [reflexivity|constructor]|].
    destruct (correct_inner_like Dh) as (h' & E' & L). exists (h' :: ch'). split; [|constructor; assumption]. cbn [map]. rewrite E, E'. reflexivity. }
  destruct H as (ch' & E2 & F). exists (o', ch'). cbn [fst snd]. rewrite E, E2. split; [reflexivity|]. split; assumption.
Qed.
Lemma drawn_is_closed s c : drawn_shape s c -> closed_shape c.
Proof. intros [[C _] D]. split; [exact C|]. clear C. induction D as [|x y l l' [H _] _ IH]; constructor; assumption. Qed.
Lemma alike_closed c c' : closed_shape c -> alike c c' -> closed_shape c'.
Proof.
  intros [C H] [L F]. split; [exact (like_closed C L)|]. clear L C. revert H. induction F as [|x y l l' Lx _ IH]; intros H; [constructor|]. inversion H; subst.
  constructor; [exact (like_closed H2 Lx)|exact (IH H3)].
Qed.
Lemma closed_drawn_shape c : closed_shape c -> drawn_shape c c.
Proof. intros [C H]. split; [apply drawn_closed, C|]. induction H as [|x l Hx _ IH]; constructor; [apply drawn_closed, Hx|exact IH]. Qed.
Lemma alike_trans a b c : alike a b -> alike b c -> alike a c.
Proof.
  intros [L F] [L' F']. split; [exact (like_trans L L')|]. revert F'. generalize (snd c). induction F as [|x y l l' Lx _ IH]; intros l'' F'; inversion F'; subst; constructor; [eapply like_trans; eassumption|auto].
Qed.
Definition scode (p : pt) (s : rshape) : Z := shape_code (rx_pt p) (rx_shape s).
Lemma scode_eq p s : scode p s = if (rcode p (fst s) =? 1)%Z
  then match find (fun k => negb (k =? -1)%Z) (map (rcode p) (snd s)) with Some k => (- k)%Z | None => rcode p (fst s) end
  else rcode p (fst s).
Proof. unfold scode, shape_code, rcode, rx_shape. cbn [sh_outer sh_inners]. rewrite map_map. reflexivity. Qed.
Lemma alike_code s s' p : closed_shape s -> alike s s' -> scode p s' = scode p s.
Proof.
  intros [C H] [L F]. rewrite !scode_eq, (like_code p C L).
  assert (E : map (rcode p) (snd s') = map (rcode p) (snd s)).
  { clear L C. revert H. induction F as [|x y l l' Lx _ IH]; intros H; [reflexivity|]. inversion H; subst. cbn [map]. rewrite (like_code p H2 Lx), (IH H3). reflexivity. }
  rewrite E. reflexivity.
Qed.
Theorem scode_shape s p : closed_shape s -> holes_apart s -> (scode p s <> (-1)%Z <-> in_shape s p).
Proof.
  intros [C H] A. rewrite scode_eq. unfold in_shape.
  destruct (code_spec p C) as [[O ->]|[[O ->]|(O & O' & ->)]]; cbn [Z.eqb Pos.eqb].
  - split; [intros _; left; exact O|lia].
  - assert (N := encloses_off O).
    destruct (find _ _) as [k|] eqn:E.
    + apply find_some in E. destruct E as [I K]. apply in_map_iff in I. destruct I as (h & Eh & Ih).
      assert (Ch := proj1 (Forall_forall _ _) H h Ih).
      destruct (code_spec p Ch) as [[Hh Eh']|[[Hh Eh']|(_ & _ & Eh')]]; rewrite Eh' in Eh; subst k; cbn in K.
      * split; [intros _; right; split; [exact O|]|lia]. intros h' I' X.
        assert (h' = h) by (apply (@A h' h p I' Ih X); left; exact Hh). subst h'. exact (encloses_off X Hh).
      * split; [lia|]. intros [X|[_ X]]; [destruct (N X)|destruct (X h Ih Hh)].
      * discriminate.
    + split; [intros _; right; split; [exact O|]|lia]. intros h I X.
      assert (Ch := proj1 (Forall_forall _ _) H h I).
      assert (F := find_none _ _ E (rcode p h) (in_map _ _ _ I)). cbv beta in F.
      destruct (code_spec p Ch) as [[Hh Eh']|[[Hh Eh']|(_ & Hh & Eh')]]; rewrite Eh' in F; try discriminate. exact (Hh X).
  - split; [lia|]. intros [X|[X _]]; [destruct (O X)|destruct (O' X)].
Qed.
