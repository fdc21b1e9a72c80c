(** Proofs for the triangulation (C52, C53). *)
From Coq Require Import Reals Lra Lia List String Permutation Sorted Bool.
From Verif Require Import Lib NumReal LibR Triangulation Spec_Tri.
Import ListNotations.
Set Implicit Arguments.
Local Open Scope list_scope.

Section Any.
Context {F : Type} {NF : Num F} {SO : Sorter}.

Definition verts_in (S : list (tvert F)) (t : triangle F) : Prop := incl (corners t) S.
Definition ends_in (S : list (tvert F)) (e : tedge F) : Prop := In (te_b e) S /\ In (te_e e) S.

Lemma mk_edge_in S a b : In a S -> In b S -> ends_in S (mk_edge a b).
Proof. intros Ha Hb. unfold ends_in, mk_edge. cbn [te_b te_e]. destruct (tv_ltb b a), (tv_ltb a b); auto. Qed.
Lemma tri_edges_in S t : verts_in S t -> Forall (ends_in S) [t_ab t; t_bc t; t_ac t].
Proof.
  intros H. assert (Ha : In (ta t) S) by (apply H; cbn; auto). assert (Hb : In (tb t) S) by (apply H; cbn; auto).
  assert (Hc : In (tc t) S) by (apply H; cbn; auto).
  repeat constructor; apply mk_edge_in; assumption.
Qed.
Lemma fan_in S v es : In v S -> Forall (ends_in S) es -> Forall (verts_in S) (fan v es).
Proof.
  intros Hv. remember (List.length es) as n. revert es Heqn. induction n as [n IH] using lt_wf_ind. intros es Hn H.
  destruct es as [|e rest]; [constructor|]. inversion H as [|? ? He Hr]; subst.
  assert (Ht : verts_in S (mkT v (te_b e) (te_e e))).
  { destruct He as [H1 H2]. intros x [<-|[<-|[<-|[]]]]; assumption. }
  destruct rest as [|e' rest']; [cbn; constructor; [exact Ht|constructor]|]. cbn [fan].
  destruct (te_eqb e e').
  - inversion Hr as [|? ? _ Hr']; subst. eapply IH; [|reflexivity|exact Hr']. cbn; lia.
  - constructor; [exact Ht|]. change (Forall (verts_in S) (fan v (e' :: rest'))). eapply IH; [|reflexivity|exact Hr]. cbn; lia.
Qed.
Lemma insert_in S v ts ts' : In v S -> Forall (verts_in S) ts -> insert_vertex ts v = Ok ts' -> Forall (verts_in S) ts'.
Proof.
  intros Hv H. unfold insert_vertex. cbv zeta. intros E.
  destruct (sort_res te_ltb _) as [es| | |] eqn:Es; try discriminate. cbn [bind] in E. injection E as <-.
  apply sort_res_ok in Es. destruct Es as (_ & Hp & _).
  apply Forall_app. split.
  - apply Forall_forall. intros t Ht. apply filter_In in Ht. rewrite Forall_forall in H. apply H, Ht.
  - apply fan_in; [exact Hv|]. apply Forall_forall. intros e He.
    apply Permutation_sym in Hp. apply (Permutation_in _ Hp) in He. apply in_flat_map in He. destruct He as (t & Ht & He).
    apply filter_In in Ht. rewrite Forall_forall in H.
    assert (X := tri_edges_in (H t (proj1 Ht))). rewrite Forall_forall in X. apply X, He.
Qed.
Definition insert_all (ts : res (list (triangle F))) (vs : list (tvert F)) : res (list (triangle F)) :=
  fold_left (fun acc v => ts <- acc ;; insert_vertex ts v) vs ts.
Lemma insert_all_stuck vs (r : res (list (triangle F))) : (forall ts, r <> Ok ts) -> forall ts, insert_all r vs <> Ok ts.
Proof.
  revert r; induction vs as [|v t IH]; intros r Hr ts; [apply Hr|]. cbn [insert_all fold_left].
  apply IH. intros ts'. destruct r; cbn [bind]; try discriminate. exfalso; eapply Hr; reflexivity.
Qed.
Lemma insert_all_cons v vs ts ts' : insert_all (Ok ts) (v :: vs) = Ok ts' ->
  exists t1, insert_vertex ts v = Ok t1 /\ insert_all (Ok t1) vs = Ok ts'.
Proof.
  cbn [insert_all fold_left bind]. intros H. destruct (insert_vertex ts v) as [t1| | |] eqn:E; [eauto| | |].
  - exfalso. refine (@insert_all_stuck vs Throw _ _ H). discriminate.
  - exfalso. refine (@insert_all_stuck vs UB _ _ H). discriminate.
  - exfalso. refine (@insert_all_stuck vs OutOfFuel _ _ H). discriminate.
Qed.
Lemma insert_all_in S vs : forall ts ts', incl vs S -> Forall (verts_in S) ts -> insert_all (Ok ts) vs = Ok ts' -> Forall (verts_in S) ts'.
Proof.
  induction vs as [|v t IH]; intros ts ts' Hi H E.
  - cbn in E. injection E as <-. exact H.
  - apply insert_all_cons in E. destruct E as (t1 & E1 & E2).
    eapply IH; [|eapply insert_in; [|exact H|exact E1]|exact E2].
    + intros x Hx. apply Hi. right; exact Hx.
    + apply Hi. left; reflexivity.
Qed.

(** what a returned triangle passed *)
Record kept (vs : list (tvert F)) (maxedge : F) (t : triangle F) : Prop := mkKept {
  kp_in : incl (corners t) vs;
  kp_names : forall v, In v (corners t) -> ~ In (tv_id v) reserved;
  kp_ab : (maxedge <! te_len (t_ab t)) = false;
  kp_bc : (maxedge <! te_len (t_bc t)) = false;
  kp_ac : (maxedge <! te_len (t_ac t)) = false
}.
Lemma super_ids vs v0 v1 v2 : super_vertices vs = (v0, v1, v2) ->
  tv_id v0 = "super1"%string /\ tv_id v1 = "super2"%string /\ tv_id v2 = "super3"%string.
Proof.
  unfold super_vertices. destruct (tri_bounds vs) as [[[a b] c] d]. intros H. injection H as <- <- <-. cbn. auto.
Qed.
Lemma not_dropped vs v0 v1 v2 maxedge t : super_vertices vs = (v0, v1, v2) ->
  verts_in (v0 :: v1 :: v2 :: vs) t -> tri_dropped v0 v1 v2 maxedge t = false -> kept vs maxedge t.
Proof.
  intros Hs Hv Hd. destruct (super_ids _ Hs) as (I0 & I1 & I2). unfold tri_dropped in Hd. cbv zeta in Hd.
  unfold tv_eqb in Hd. rewrite I0, I1, I2 in Hd.
  repeat match goal with H : _ || _ = false |- _ => apply orb_false_iff in H; destruct H end.
  assert (N : forall v, In v (corners t) -> ~ In (tv_id v) reserved).
  { intros v [<-|[<-|[<-|[]]]] [X|[X|[X|[]]]]; rewrite <- X in *; discriminate. }
  split; try assumption.
  intros v Hin. destruct (Hv v Hin) as [X|[X|[X|X]]]; [..|exact X]; exfalso; apply (N v Hin);
    rewrite <- X; rewrite ?I0, ?I1, ?I2; cbn; auto.
Qed.
Theorem triangulate_kept vs maxedge ts : triangulate_vertices vs maxedge = Ok ts -> Forall (kept vs maxedge) ts.
Proof.
  unfold triangulate_vertices. destruct (Nat.ltb _ 3); [intros H; injection H as <-; constructor|].
  destruct (super_vertices vs) as [[v0 v1] v2] eqn:Es. fold (insert_all (Ok [mkT v0 v1 v2]) (v0 :: v1 :: v2 :: vs)).
  destruct (insert_all _ _) as [T| | |] eqn:ET; cbn [bind]; try discriminate.
  destruct (sort_res tv_ltb vs) as [vs'| | |]; cbn [bind]; try discriminate.
  intros H. apply sort_res_ok in H. destruct H as (_ & Hp & _).
  apply Forall_forall. intros t Ht. apply Permutation_sym in Hp. apply (Permutation_in _ Hp) in Ht. apply filter_In in Ht. destruct Ht as [Ht Hd].
  apply (@not_dropped vs v0 v1 v2); [exact Es| |destruct (tri_dropped _ _ _ _ t); [discriminate|reflexivity]].
  assert (X : Forall (verts_in (v0 :: v1 :: v2 :: vs)) T).
  { eapply insert_all_in; [apply incl_refl| |exact ET]. constructor; [|constructor].
    intros x [<-|[<-|[<-|[]]]]; cbn; auto. }
  rewrite Forall_forall in X. apply X, Ht.
Qed.
End Any.

(** * over the reals *)
Local Open Scope R_scope.
Lemma te_len_real (a b : tvert RX) : real_vert a -> real_vert b -> te_len (mk_edge a b) = (Some (dist2 (loc a) (loc b)) : RX).
Proof.
  intros [Hax Hay] [Hbx Hby]. unfold te_len, mk_edge, tv_ltb. cbn [te_b te_e]. rewrite Hax, Hay, Hbx, Hby.
  rewrite !rx_ltb, !rx_eqb. unfold dist2.
  assert (S : forall x y z w : R, 0 <= (x - y) * (x - y) + (z - w) * (z - w)) by (intros; apply Rplus_le_le_0_compat; apply Rle_0_sqr).
  set (l1 := Rltb _ _ || _). set (l2 := Rltb (fst (loc a)) _ || _).
  assert (E : l1 = false -> l2 = false -> fst (loc a) = fst (loc b) /\ snd (loc a) = snd (loc b)).
  { unfold l1, l2. intros H1 H2. apply orb_false_iff in H1. apply orb_false_iff in H2. destruct H1 as [H1 H1'], H2 as [H2 H2'].
    apply Rltb_false in H1. apply Rltb_false in H2. assert (fst (loc a) = fst (loc b)) by lra. split; [assumption|].
    rewrite H in H1', H2'. assert (X : Reqb (fst (loc b)) (fst (loc b)) = true) by (apply Reqb_true; reflexivity).
    rewrite X in *. cbn [andb] in *. apply Rltb_false in H1'. apply Rltb_false in H2'. lra. }
  assert (E2 : l1 = true -> l2 = true -> False).
  { unfold l1, l2. intros H1 H2. apply orb_true_iff in H1. apply orb_true_iff in H2. rewrite !andb_true_iff in *.
    rewrite !Rltb_true, !Reqb_true in *. lra. }
  destruct l1, l2.
  - exfalso; apply E2; reflexivity.
  - rewrite Hax, Hay, Hbx, Hby, !rx_sub, !rx_mul, rx_add, rx_sqrt by apply S. f_equal. f_equal. ring.
  - rewrite Hax, Hay, Hbx, Hby, !rx_sub, !rx_mul, rx_add, rx_sqrt by apply S. f_equal.
  - rewrite Hax, Hay, !rx_sub, !rx_mul, rx_add, rx_sqrt by apply S. destruct (E eq_refl eq_refl) as [-> ->]. f_equal.
Qed.

Theorem triangulate_edges {SO : Sorter} (vs : list (tvert RX)) (m : R) ts : Forall real_vert vs ->
  triangulate_vertices vs (Some m : RX) = Ok ts ->
  Forall (fun t => incl (corners t) vs /\ (forall v, In v (corners t) -> ~ In (tv_id v) reserved) /\
    dist2 (loc (ta t)) (loc (tb t)) <= m /\ dist2 (loc (tb t)) (loc (tc t)) <= m /\ dist2 (loc (ta t)) (loc (tc t)) <= m) ts.
Proof.
  intros Hr H. apply triangulate_kept in H. eapply Forall_impl; [|exact H]. cbv beta. intros t K.
  destruct K as [K1 K2 K3 K4 K5]. split; [exact K1|]. split; [exact K2|].
  rewrite Forall_forall in Hr.
  assert (Ra : real_vert (ta t)) by (apply Hr, K1; cbn; auto). assert (Rb : real_vert (tb t)) by (apply Hr, K1; cbn; auto).
  assert (Rc : real_vert (tc t)) by (apply Hr, K1; cbn; auto).
  unfold t_ab in K3. unfold t_bc in K4. unfold t_ac in K5.
  rewrite te_len_real in K3, K4, K5 by assumption. rewrite rx_ltb in K3, K4, K5. rewrite Rltb_false in K3, K4, K5. auto.
Qed.

(** ** the comparators are strict weak orders on proper inputs *)
Fixpoint lexlt (l m : list R) : Prop :=
  match l, m with
  | x :: l', y :: m' => x < y \/ (x = y /\ lexlt l' m')
  | _, _ => False
  end.
Lemma lexlt_irrefl l : ~ lexlt l l.
Proof. induction l as [|x t IH]; cbn; [auto|]. intros [H|[_ H]]; [lra|auto]. Qed.
Lemma lexlt_trans l : forall m n, lexlt l m -> lexlt m n -> lexlt l n.
Proof.
  induction l as [|x t IH]; intros [|y m] [|z n]; cbn; try tauto.
  intros [H1|[H1 H1']] [H2|[H2 H2']]; try (left; lra). right. split; [lra|]. eapply IH; eauto.
Qed.
Lemma lexlt_total l : forall m, List.length l = List.length m -> lexlt l m \/ l = m \/ lexlt m l.
Proof.
  induction l as [|x t IH]; intros [|y m] H; cbn in *; try discriminate; [auto|].
  destruct (Rtotal_order x y) as [L|[->|L]]; [auto| |auto].
  destruct (IH m) as [K|[->|K]]; [lia|auto|auto|auto].
Qed.
Lemma lex_swo A (lt : A -> A -> bool) (key : A -> list R) n l :
  (forall a b, In a l -> In b l -> (lt a b = true <-> lexlt (key a) (key b))) -> (forall a, List.length (key a) = n) ->
  strict_weak_on lt l.
Proof.
  intros H Hn. split; [|split].
  - intros a Ha. destruct (lt a a) eqn:E; [|reflexivity]. apply H in E; auto. exfalso; eapply lexlt_irrefl; eauto.
  - intros a b c Ha Hb Hc H1 H2. apply H in H1; auto. apply H in H2; auto. apply H; auto. eapply lexlt_trans; eauto.
  - intros a b c Ha Hb Hc H1 H2. destruct (lt a c) eqn:E; [|reflexivity]. apply H in E; auto. exfalso.
    assert (N1 : ~ lexlt (key a) (key b)) by (intros X; apply H in X; auto; congruence).
    assert (N2 : ~ lexlt (key b) (key c)) by (intros X; apply H in X; auto; congruence).
    destruct (@lexlt_total (key a) (key b)) as [K|[K|K]]; [rewrite !Hn; reflexivity|auto| |].
    + rewrite K in E. auto.
    + apply N2. eapply lexlt_trans; eauto.
Qed.

(** names and places identify vertices *)
Definition tidy (V : list (tvert RX)) : Prop :=
  Forall real_vert V /\ (forall a b, In a V -> In b V -> tv_id a = tv_id b -> a = b) /\
  (forall a b, In a V -> In b V -> loc a = loc b -> a = b).
Definition vkey (v : tvert RX) : list R := [rval (tv_x v); rval (tv_y v)].
Lemma tv_ltb_key a b : real_vert a -> real_vert b -> (tv_ltb a b = true <-> lexlt (vkey a) (vkey b)).
Proof.
  intros [Hax Hay] [Hbx Hby]. unfold tv_ltb, vkey. rewrite Hax, Hay, Hbx, Hby, !rx_ltb, rx_eqb. cbn [rval lexlt].
  rewrite orb_true_iff, andb_true_iff, !Rltb_true, Reqb_true. tauto.
Qed.
Lemma vkey_loc a b : vkey a = vkey b <-> loc a = loc b.
Proof. unfold vkey, loc. split; intros H; injection H as -> ->; reflexivity. Qed.
Lemma tv_eqb_key V a b : tidy V -> In a V -> In b V -> (tv_eqb a b = true <-> a = b).
Proof.
  intros (Hr & Hi & Hl) Ha Hb. unfold tv_eqb. rewrite String.eqb_eq. split; [apply Hi; assumption|intros ->; reflexivity].
Qed.
Lemma tv_key_eq V a b : tidy V -> In a V -> In b V -> (vkey a = vkey b <-> a = b).
Proof. intros (Hr & Hi & Hl) Ha Hb. rewrite vkey_loc. split; [apply Hl; assumption|intros ->; reflexivity]. Qed.
Lemma lexlt_app a b : forall c d, List.length a = List.length b -> (lexlt (a ++ c) (b ++ d) <-> lexlt a b \/ (a = b /\ lexlt c d)).
Proof.
  revert b; induction a as [|x t IH]; intros [|y b] c d Hl; cbn in *; try discriminate; [tauto|].
  rewrite IH by lia. split.
  - intros [H|[-> [H|[-> H]]]]; auto.
  - intros [[H|[-> H]]|[H1 H]]; auto. injection H1 as -> ->. auto.
Qed.
Lemma tv_real V a : tidy V -> In a V -> real_vert a.
Proof. intros (Hr & _) Ha. rewrite Forall_forall in Hr. apply Hr, Ha. Qed.

Lemma vs_swo V : Forall real_vert V -> strict_weak_on tv_ltb V.
Proof.
  intros H. apply (@lex_swo _ _ vkey 2); [|reflexivity]. intros a b Ha Hb. rewrite Forall_forall in H. apply tv_ltb_key; apply H; assumption.
Qed.
Lemma edges_swo V es : tidy V -> Forall (ends_in V) es -> strict_weak_on te_ltb es.
Proof.
  intros HV He. apply (@lex_swo _ _ (fun e => vkey (te_b e) ++ vkey (te_e e)) 4); [|reflexivity].
  intros e f He1 Hf1. rewrite Forall_forall in He. destruct (He e He1) as [A1 A2], (He f Hf1) as [B1 B2].
  rewrite lexlt_app by reflexivity. unfold te_ltb. rewrite orb_true_iff, andb_true_iff.
  rewrite (@tv_eqb_key V _ _ HV A1 B1), (@tv_key_eq V _ _ HV A1 B1).
  rewrite !tv_ltb_key by (eapply tv_real; eauto). tauto.
Qed.
Lemma tris_swo V ts : tidy V -> Forall (verts_in V) ts -> strict_weak_on t_ltb ts.
Proof.
  intros HV Ht. apply (@lex_swo _ _ (fun t => vkey (ta t) ++ vkey (tb t) ++ vkey (tc t)) 6); [|reflexivity].
  intros s t Hs1 Ht1. rewrite Forall_forall in Ht. assert (Is := Ht s Hs1). assert (It := Ht t Ht1). unfold verts_in, corners in *.
  assert (A1 : In (ta s) V) by (apply Is; cbn; auto). assert (A2 : In (tb s) V) by (apply Is; cbn; auto). assert (A3 : In (tc s) V) by (apply Is; cbn; auto).
  assert (B1 : In (ta t) V) by (apply It; cbn; auto). assert (B2 : In (tb t) V) by (apply It; cbn; auto). assert (B3 : In (tc t) V) by (apply It; cbn; auto).
  rewrite !lexlt_app by reflexivity. unfold t_ltb. rewrite !orb_true_iff, !andb_true_iff.
  rewrite (@tv_eqb_key V _ _ HV A1 B1), (@tv_key_eq V _ _ HV A1 B1), (@tv_eqb_key V _ _ HV A2 B2), (@tv_key_eq V _ _ HV A2 B2).
  rewrite !tv_ltb_key by (eapply tv_real; eauto). tauto.
Qed.
Lemma sort_res_swo {SO : Sorter} A (lt : A -> A -> bool) l : strict_weak_on lt l -> sort_res lt l = Ok (ssort lt l).
Proof. intros H. unfold sort_res. apply swo_b_spec in H. rewrite H. reflexivity. Qed.

(** ** the super-triangle *)
Definition bounds_ok (vs : list (tvert RX)) (x0 x1 y0 y1 : R) : Prop :=
  forall v, In v vs -> x0 <= fst (loc v) <= x1 /\ y0 <= snd (loc v) <= y1.
Lemma bounds_fold (vs : list (tvert RX)) : Forall real_vert vs -> forall a b c d,
  exists x0 x1 y0 y1, fold_left (fun (b : RX * RX * RX * RX) v =>
      let '(minx, maxx, miny, maxy) := b in
      (if tv_x v <! minx then tv_x v else minx,
       if maxx <! tv_x v then tv_x v else maxx,
       if tv_y v <! miny then tv_y v else miny,
       if maxy <! tv_y v then tv_y v else maxy)) vs ((Some a : RX), (Some b : RX), (Some c : RX), (Some d : RX))
    = ((Some x0 : RX), (Some x1 : RX), (Some y0 : RX), (Some y1 : RX)) /\ x0 <= a /\ b <= x1 /\ y0 <= c /\ d <= y1 /\ bounds_ok vs x0 x1 y0 y1.
Proof.
  induction 1 as [|v t Hv Ht IH]; intros a b c d.
  - exists a, b, c, d. cbn. split; [reflexivity|]. do 4 (split; [lra|]). intros v [].
  - cbn [fold_left]. destruct Hv as [Hx Hy]. rewrite Hx, Hy, !rx_ltb.
    set (p := loc v) in *.
    assert (X1 : (if Rltb (fst p) a then (Some (fst p) : RX) else Some a) = Some (Rmin (fst p) a)).
    { destruct (Rltb (fst p) a) eqn:E; [apply Rltb_true in E; rewrite Rmin_left by lra|apply Rltb_false in E; rewrite Rmin_right by lra]; reflexivity. }
    assert (X2 : (if Rltb b (fst p) then (Some (fst p) : RX) else Some b) = Some (Rmax b (fst p))).
    { destruct (Rltb b (fst p)) eqn:E; [apply Rltb_true in E; rewrite Rmax_right by lra|apply Rltb_false in E; rewrite Rmax_left by lra]; reflexivity. }
    assert (X3 : (if Rltb (snd p) c then (Some (snd p) : RX) else Some c) = Some (Rmin (snd p) c)).
    { destruct (Rltb (snd p) c) eqn:E; [apply Rltb_true in E; rewrite Rmin_left by lra|apply Rltb_false in E; rewrite Rmin_right by lra]; reflexivity. }
    assert (X4 : (if Rltb d (snd p) then (Some (snd p) : RX) else Some d) = Some (Rmax d (snd p))).
    { destruct (Rltb d (snd p)) eqn:E; [apply Rltb_true in E; rewrite Rmax_right by lra|apply Rltb_false in E; rewrite Rmax_left by lra]; reflexivity. }
    rewrite X1, X2, X3, X4.
    destruct (IH (Rmin (fst p) a) (Rmax b (fst p)) (Rmin (snd p) c) (Rmax d (snd p))) as (x0 & x1 & y0 & y1 & E & H1 & H2 & H3 & H4 & H5).
    assert (M1 := Rmin_l (fst p) a). assert (M2 := Rmin_r (fst p) a). assert (M3 := Rmin_l (snd p) c). assert (M4 := Rmin_r (snd p) c).
    assert (M5 := Rmax_l b (fst p)). assert (M6 := Rmax_r b (fst p)). assert (M7 := Rmax_l d (snd p)). assert (M8 := Rmax_r d (snd p)).
    exists x0, x1, y0, y1. split; [exact E|]. do 4 (split; [lra|]).
    intros w [<-|Hw]; [fold p; lra|apply H5, Hw].
Qed.

(** half-planes of the super-triangle *)
Definition inside_super (x0 x1 y0 y1 : R) (p : pt) : Prop :=
  y0 < snd p /\ snd p - y0 < fst p - x0 + (y1 - y0) /\ snd p - y0 < x1 - fst p + (y1 - y0).
Lemma super_real (vs : list (tvert RX)) : Forall real_vert vs -> vs <> [] ->
  exists x0 x1 y0 y1, super_vertices vs =
    (mkTV (Some (x0 + y0 - y1) : RX) (Some y0 : RX) "super1"%string,
     mkTV (Some (x1 + y1 - y0) : RX) (Some y0 : RX) "super2"%string,
     mkTV (Some ((x0 + x1) / 2) : RX) (Some (y1 + (x1 - x0) / 2) : RX) "super3"%string) /\
   x0 + 20 <= x1 /\ y0 + 20 <= y1 /\ (forall v, In v vs -> x0 + 10 <= fst (loc v) <= x1 - 10 /\ y0 + 10 <= snd (loc v) <= y1 - 10).
Proof.
  intros Hr Hne. unfold super_vertices, tri_bounds.
  assert (D : exists D, (fdblmax : RX) = Some D) by (eexists; reflexivity). destruct D as [D ->]. rewrite rx_opp.
  destruct (bounds_fold Hr D (- D) D (- D)) as (a & b & c & d & E & _ & _ & _ & _ & H). rewrite E. clear E.
  exists (a - 10), (b + 10), (c - 10), (d + 10). repeat first [rewrite rx_ofZ | rewrite rx_sub | rewrite rx_add | rewrite rx_div by lra].
  split; [reflexivity|].
  destruct vs as [|v t]; [congruence|]. assert (Hv := H v (or_introl eq_refl)).
  split; [lra|]. split; [lra|]. intros w Hw. assert (X := H w Hw). lra.
Qed.

Lemma nodup_map_inj A B (f : A -> B) l a b : NoDup (map f l) -> In a l -> In b l -> f a = f b -> a = b.
Proof.
  induction l as [|x t IH]; intros Hn Ha Hb E; [destruct Ha|]. cbn [map] in Hn. inversion Hn as [|? ? Hx Ht]; subst.
  destruct Ha as [<-|Ha], Hb as [<-|Hb]; [reflexivity| | |auto].
  - exfalso. apply Hx. rewrite E. apply in_map, Hb.
  - exfalso. apply Hx. rewrite <- E. apply in_map, Ha.
Qed.
Lemma proper_tidy vs v0 v1 v2 : proper vs -> vs <> [] -> super_vertices vs = (v0, v1, v2) -> tidy (v0 :: v1 :: v2 :: vs).
Proof.
  intros (Hr & Hn & Hs & Hl) Hne E. destruct (super_ids _ E) as (I0 & I1 & I2).
  destruct (super_real Hr Hne) as (x0 & x1 & y0 & y1 & E' & Hx & Hy & Hb). rewrite E in E'. injection E' as -> -> ->.
  set (v0 := mkTV _ _ "super1"%string) in *. set (v1 := mkTV _ _ "super2"%string) in *. set (v2 := mkTV _ _ "super3"%string) in *.
  assert (L0 : loc v0 = (x0 + y0 - y1, y0)) by reflexivity. assert (L1 : loc v1 = (x1 + y1 - y0, y0)) by reflexivity.
  assert (L2 : loc v2 = ((x0 + x1) / 2, y1 + (x1 - x0) / 2)) by reflexivity.
  split; [|split].
  - constructor; [split; reflexivity|]. constructor; [split; reflexivity|]. constructor; [split; reflexivity|]. exact Hr.
  - assert (K : forall a, In a vs -> forall s, In s reserved -> tv_id a <> s) by (intros a Ha s Hs' X; apply (Hs a Ha); rewrite X; exact Hs').
    intros a b Ha Hb' Eq.
    destruct Ha as [<-|[<-|[<-|Ha]]], Hb' as [<-|[<-|[<-|Hb']]]; try reflexivity; try discriminate Eq.
    + exfalso. apply (K b Hb' (tv_id v0)); [cbn; auto|symmetry; exact Eq].
    + exfalso. apply (K b Hb' (tv_id v1)); [cbn; auto|symmetry; exact Eq].
    + exfalso. apply (K b Hb' (tv_id v2)); [cbn; auto|symmetry; exact Eq].
    + exfalso. apply (K a Ha (tv_id v0)); [cbn; auto|exact Eq].
    + exfalso. apply (K a Ha (tv_id v1)); [cbn; auto|exact Eq].
    + exfalso. apply (K a Ha (tv_id v2)); [cbn; auto|exact Eq].
    + eapply nodup_map_inj; [exact Hn|exact Ha|exact Hb'|exact Eq].
  - assert (K : forall a, In a vs -> loc a <> loc v0 /\ loc a <> loc v1 /\ loc a <> loc v2).
    { intros a Ha. specialize (Hb a Ha). destruct (loc a) as [ax ay]. cbn [fst snd] in Hb. rewrite L0, L1, L2.
      split; [|split]; intros H; injection H as H1 H2; lra. }
    intros a b Ha Hb' Eq.
    destruct Ha as [<-|[<-|[<-|Ha]]], Hb' as [<-|[<-|[<-|Hb']]]; try reflexivity;
      try (exfalso; rewrite ?L0, ?L1, ?L2 in Eq; injection Eq; intros; lra);
      try (exfalso; destruct (K b Hb') as (K1 & K2 & K3); congruence);
      try (exfalso; destruct (K a Ha) as (K1 & K2 & K3); congruence).
    eapply nodup_map_inj; [exact Hl|exact Ha|exact Hb'|exact Eq].
Qed.

Section Safe.
Context {SO : Sorter}.
Lemma hit_edges_in V (ts : list (triangle RX)) (q : triangle RX -> bool) : Forall (verts_in V) ts ->
  Forall (ends_in V) (flat_map (fun t => [t_ab t; t_bc t; t_ac t]) (filter q ts)).
Proof.
  intros H. apply Forall_forall. intros e He. apply in_flat_map in He. destruct He as (t & Ht & He).
  apply filter_In in Ht. rewrite Forall_forall in H. assert (X := tri_edges_in (H t (proj1 Ht))). rewrite Forall_forall in X. apply X, He.
Qed.
Lemma insert_safe V ts v : tidy V -> Forall (verts_in V) ts -> In v V ->
  exists ts', insert_vertex ts v = Ok ts' /\ Forall (verts_in V) ts'.
Proof.
  intros HV H Hv.
  assert (E : exists ts', insert_vertex ts v = Ok ts').
  { unfold insert_vertex. cbv zeta. rewrite sort_res_swo; [cbn [bind]; eauto|]. eapply edges_swo; [exact HV|]. apply hit_edges_in, H. }
  destruct E as (ts' & E). exists ts'. split; [exact E|]. eapply insert_in; eauto.
Qed.
Lemma insert_all_safe V vs : tidy V -> incl vs V -> forall ts, Forall (verts_in V) ts ->
  exists ts', insert_all (Ok ts) vs = Ok ts' /\ Forall (verts_in V) ts'.
Proof.
  intros HV. induction vs as [|v t IH]; intros Hi ts H; [cbn; eauto|].
  destruct (@insert_safe V ts v HV H (Hi v (or_introl eq_refl))) as (t1 & E & H1).
  cbn [insert_all fold_left bind]. rewrite E. apply IH; [|exact H1]. intros x Hx. apply Hi. right; exact Hx.
Qed.
Theorem triangulate_safe vs maxedge : proper vs -> exists ts, triangulate_vertices vs maxedge = Ok ts.
Proof.
  intros Hp. unfold triangulate_vertices. destruct (Nat.ltb_spec (List.length vs) 3) as [L|L]; [eauto|].
  destruct (super_vertices vs) as [[v0 v1] v2] eqn:Es.
  assert (HV : tidy (v0 :: v1 :: v2 :: vs)) by (apply proper_tidy; [exact Hp|intros ->; cbn in L; lia|exact Es]).
  fold (insert_all (Ok [mkT v0 v1 v2]) (v0 :: v1 :: v2 :: vs)).
  destruct (@insert_all_safe _ (v0 :: v1 :: v2 :: vs) HV (incl_refl _) [mkT v0 v1 v2]) as (T & -> & HT).
  { constructor; [|constructor]. intros x [<-|[<-|[<-|[]]]]; cbn; auto. }
  cbn [bind]. rewrite sort_res_swo by (apply vs_swo, Hp). cbn [bind]. rewrite sort_res_swo; [eauto|].
  eapply tris_swo; [exact HV|]. apply Forall_forall. intros t Ht. apply filter_In in Ht. rewrite Forall_forall in HT. apply HT, Ht.
Qed.
End Safe.

(** * the levels (C53) *)
Section Levels.
Context {F : Type} {NF : Num F} {SO : Sorter}.
Definition big (l : level F) : bool := Nat.ltb 3 (List.length (rm_points (l_rm l))).
Definition names (ts : list (triangle F)) : list tri := map (fun t => mkTri (tv_id (ta t)) (tv_id (tb t)) (tv_id (tc t))) ts.

Lemma alookup_ainsert_other V k k1 (v : V) l : k <> k1 -> alookup k (ainsert k1 v l) = alookup k l.
Proof.
  intros N. unfold ainsert. destruct (amem k1 l); [reflexivity|]. rewrite alookup_app.
  destruct (alookup k l); [reflexivity|]. cbn. destruct (String.eqb_spec k k1); [contradiction|reflexivity].
Qed.
Lemma alookup_ainsert_same V k (v : V) l : alookup k l = None -> alookup k (ainsert k v l) = Some v.
Proof.
  intros N. unfold ainsert, amem. rewrite N, alookup_app, N. cbn. rewrite String.eqb_refl. reflexivity.
Qed.
Lemma levels_keep (ls : list (level F)) : forall acc m k, triangulate_levels ls acc = Ok m -> ~ In k (map (@l_id F) ls) ->
  alookup k m = alookup k acc.
Proof.
  induction ls as [|l t IH]; intros acc m k H Hk.
  - cbn in H. injection H as <-. reflexivity.
  - cbn [triangulate_levels] in H. assert (Nk : k <> l_id l) by (intros ->; apply Hk; left; reflexivity).
    assert (Nt : ~ In k (map (@l_id F) t)) by (intros X; apply Hk; right; exact X).
    destruct (Nat.ltb 3 _).
    + destruct (level_triangles l) as [T| | |]; cbn [bind] in H; try discriminate.
      destruct T as [|t0 T']; [injection H as <-; reflexivity|].
      rewrite (IH _ _ _ H Nt). apply alookup_ainsert_other, Nk.
    + apply (IH _ _ _ H Nt).
Qed.
Lemma levels_exact (ls : list (level F)) : forall acc m, triangulate_levels ls acc = Ok m -> NoDup (map (@l_id F) ls) ->
  (forall k, In k (map (@l_id F) ls) -> alookup k acc = None) ->
  forall l1 l l2, ls = l1 ++ l :: l2 -> forall tris,
  alookup (l_id l) m = Some tris <->
  (big l = true /\ (forall l', In l' l1 -> big l' = true -> exists T, level_triangles l' = Ok T /\ T <> []) /\
   exists T, level_triangles l = Ok T /\ T <> [] /\ tris = names T).
Proof.
  induction ls as [|x t IH]; intros acc m H Hn Ha l1 l l2 E tris; [destruct l1; discriminate|].
  cbn [map] in Hn. inversion Hn as [|? ? Hx Ht]; subst.
  cbn [triangulate_levels] in H. fold (big x) in H.
  destruct l1 as [|y l1]; cbn [app] in E; injection E as -> ->.
  - assert (Al : alookup (l_id l) acc = None) by (apply Ha; left; reflexivity).
    destruct (big l) eqn:B.
    + destruct (level_triangles l) as [T| | |]; cbn [bind] in H; try discriminate.
      destruct T as [|t0 T'].
      * injection H as <-. rewrite Al. split; [discriminate|]. intros (_ & _ & T & ET & NT & _). injection ET as <-. congruence.
      * rewrite (@levels_keep _ _ _ _ H Hx). rewrite alookup_ainsert_same by exact Al. split.
        -- intros X. injection X as <-. split; [reflexivity|]. split; [intros l' []|]. exists (t0 :: T'). split; [reflexivity|]. split; [discriminate|reflexivity].
        -- intros (_ & _ & T & ET & NT & ->). injection ET as <-. reflexivity.
    + rewrite (@levels_keep _ _ _ _ H Hx), Al. split; [discriminate|]. intros (X & _). congruence.
  - assert (Nl : l_id l <> l_id y).
    { intros X. apply Hx. rewrite <- X. apply in_map, in_or_app. right; left; reflexivity. }
    destruct (big y) eqn:B.
    + destruct (level_triangles y) as [T| | |] eqn:ET; cbn [bind] in H; try discriminate.
      destruct T as [|t0 T'].
      * injection H as <-. rewrite (Ha (l_id l)) by (right; apply in_map, in_or_app; right; left; reflexivity).
        split; [discriminate|]. intros (_ & K & _). destruct (K y (or_introl eq_refl) B) as (T & E2 & N2). rewrite ET in E2. injection E2 as <-. congruence.
      * rewrite (IH _ _ H Ht) with (l1 := l1) (l2 := l2); [|intros k Hk; rewrite alookup_ainsert_other; [apply Ha; right; exact Hk|]|reflexivity].
        2:{ intros ->. apply Hx, Hk. }
        split; intros (K1 & K2 & K3); (split; [exact K1|]); (split; [|exact K3]).
        -- intros l' [<-|Hl'] Bl'; [exists (t0 :: T'); split; [exact ET|discriminate]|apply K2; assumption].
        -- intros l' Hl' Bl'. apply K2; [right; exact Hl'|exact Bl'].
    + rewrite (IH _ _ H Ht) with (l1 := l1) (l2 := l2); [|intros k Hk; apply Ha; right; exact Hk|reflexivity].
      split; intros (K1 & K2 & K3); (split; [exact K1|]); (split; [|exact K3]).
      * intros l' [<-|Hl'] Bl'; [congruence|apply K2; assumption].
      * intros l' Hl' Bl'. apply K2; [right; exact Hl'|exact Bl'].
Qed.
End Levels.
