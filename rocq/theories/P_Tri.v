(** C52, C53: triangulation. *)
From Coq Require Import Reals Lra.
From Verif Require Import Lib NumReal NumFloat LibR SortInst Triangulation Spec_Tri Pf_Tri Ex.
Local Open Scope string_scope.
Local Open Scope list_scope.
#[local] Existing Instance nf.
#[local] Existing Instance isorter.

(** ** C52: output of the triangulation *)
(** any number type: the corners are inputs without a reserved name, and no
    edge is found longer than the limit *)
Theorem C52_output (F : Type) (NF : Num F) (SO : Sorter) (vs : list (tvert F)) (maxedge : F) ts :
  triangulate_vertices vs maxedge = Ok ts ->
  Forall (fun t => incl (corners t) vs /\ (forall v, In v (corners t) -> ~ In (tv_id v) reserved) /\
    (maxedge <! te_len (mk_edge (ta t) (tb t))) = false /\ (maxedge <! te_len (mk_edge (tb t) (tc t))) = false /\
    (maxedge <! te_len (mk_edge (ta t) (tc t))) = false) ts.
Proof.
  intros H. apply triangulate_kept in H. eapply Forall_impl; [|exact H]. intros t K. destruct K as [K1 K2 K3 K4 K5]. auto 6.
Qed.
Print Assumptions C52_output.
Theorem C52_few (F : Type) (NF : Num F) (SO : Sorter) (vs : list (tvert F)) (maxedge : F) :
  (List.length vs < 3)%nat -> triangulate_vertices vs maxedge = Ok [].
Proof. intros H. unfold triangulate_vertices. apply Nat.ltb_lt in H. rewrite H. reflexivity. Qed.
Print Assumptions C52_few.
(** over the reals the tests are about the Euclidean lengths *)
Theorem C52_edges (SO : Sorter) (vs : list (tvert RX)) (m : R) ts : Forall real_vert vs ->
  triangulate_vertices vs (Some m : RX) = Ok ts ->
  Forall (fun t => incl (corners t) vs /\ (forall v, In v (corners t) -> ~ In (tv_id v) reserved) /\
    (dist2 (loc (ta t)) (loc (tb t)) <= m)%R /\ (dist2 (loc (tb t)) (loc (tc t)) <= m)%R /\ (dist2 (loc (ta t)) (loc (tc t)) <= m)%R) ts.
Proof. exact (@triangulate_edges SO vs m ts). Qed.
Print Assumptions C52_edges.
(** three different comparators are given to std::sort; for distinct names
    and places all are strict weak orders, for every input and every order *)
Theorem C52_safe (SO : Sorter) (vs : list (tvert RX)) (maxedge : RX) : proper vs -> exists ts, triangulate_vertices vs maxedge = Ok ts.
Proof. exact (@triangulate_safe SO vs maxedge). Qed.
Print Assumptions C52_safe.

Definition C52_v (id : string) (x y : Z) : tvert SF := mkTV (fofZ x) (fofZ y) id.
(** with a repeated name they are not *)
Theorem C52_repeated_name_refuted : exists (vs : list (tvert SF)) maxedge,
  (forall v, In v vs -> ~ In (tv_id v) reserved) /\ NoDup vs /\ triangulate_vertices vs maxedge = UB.
Proof.
  exists [C52_v "a" 9 3; C52_v "c" 0 13; C52_v "e" 19 16; C52_v "f" 10 1; C52_v "f" 19 17], (fofZ 100).
  split; [|split; [|vm_compute; reflexivity]].
  - intros v [<-|[<-|[<-|[<-|[<-|[]]]]]]; cbn; intuition discriminate.
  - repeat constructor; cbn; intuition discriminate.
Qed.
Print Assumptions C52_repeated_name_refuted.

Definition C52_vs : list (tvert RX) :=
  [mkTV (Some 0%R) (Some 0%R) "a"; mkTV (Some 4%R) (Some 0%R) "b"; mkTV (Some 0%R) (Some 4%R) "c"; mkTV (Some 4%R) (Some 5%R) "d"].
Example C52_example : proper C52_vs /\
  triangulate_vertices [C52_v "a" 0 0; C52_v "b" 4 0; C52_v "c" 0 4; C52_v "d" 4 4] (fofZ 100) =
    Ok [mkT (C52_v "c" 0 4) (C52_v "a" 0 0) (C52_v "b" 4 0); mkT (C52_v "d" 4 4) (C52_v "c" 0 4) (C52_v "b" 4 0)].
Proof.
  split; [|vm_compute; reflexivity]. split; [repeat constructor|]. split; [cbn; repeat constructor; cbn; intuition discriminate|].
  split; [intros v [<-|[<-|[<-|[<-|[]]]]]; cbn; intuition discriminate|].
  unfold C52_vs, loc. cbn [map tv_x tv_y rval].
  repeat constructor; cbn; intros H; repeat (destruct H as [H|H]; [injection H; intros; lra|]); destruct H.
Qed.

(** ** C53: triangles of the levels *)
Definition enough_points {F} (l : level F) : Prop := (3 < List.length (rm_points (l_rm l)))%nat.
Definition named_triangles {F} (T : list (triangle F)) : list tri :=
  map (fun t => mkTri (tv_id (ta t)) (tv_id (tb t)) (tv_id (tc t))) T.
(** a level gets its triangles exactly when it has four reference points and
    neither it nor an earlier such level is without any triangle *)
Theorem C53_exact (F : Type) (NF : Num F) (SO : Sorter) (c : collector F) m : triangulate c = Ok m -> NoDup (map (@l_id F) (col_levels c)) ->
  forall l1 l l2, col_levels c = l1 ++ l :: l2 -> forall tris,
  alookup (l_id l) m = Some tris <->
  (enough_points l /\ (forall l', In l' l1 -> enough_points l' -> exists T, level_triangles l' = Ok T /\ T <> []) /\
   exists T, level_triangles l = Ok T /\ T <> [] /\ tris = named_triangles T).
Proof.
  intros H Hn l1 l l2 E tris. unfold triangulate in H.
  rewrite (@levels_exact F NF SO (col_levels c) [] m H Hn (fun _ _ => eq_refl) l1 l l2 E tris). unfold enough_points, big.
  split; intros (H1 & H2 & H3).
  - apply Nat.ltb_lt in H1. split; [exact H1|]. split; [|exact H3]. intros l' Hl Hb. apply H2; [exact Hl|apply Nat.ltb_lt, Hb].
  - split; [apply Nat.ltb_lt, H1|]. split; [|exact H3]. intros l' Hl Hb. apply H2; [exact Hl|apply Nat.ltb_lt, Hb].
Qed.
Print Assumptions C53_exact.

Definition C53_line : level SF := ex_level "L1" []
  [ex_rp "p1" 0 0 []; ex_rp "p2" 4 0 []; ex_rp "p3" 8 0 []; ex_rp "p4" 12 0 []].
Definition C53_square : level SF := ex_level "L2" []
  [ex_rp "q1" 0 0 []; ex_rp "q2" 4 0 []; ex_rp "q3" 0 4 []; ex_rp "q4" 4 4 []].
(** reference points in a line on the first level: the second level, which
    has triangles of its own, gets none *)
Theorem C53_independent_refuted : exists (c : collector SF) m l T, triangulate c = Ok m /\ NoDup (map (@l_id SF) (col_levels c)) /\
  In l (col_levels c) /\ level_triangles l = Ok T /\ T <> [] /\ alookup (l_id l) m = None.
Proof.
  exists (mkCol [C53_line; C53_square] []), [], C53_square,
    [mkT (C52_v "q3" 0 4) (C52_v "q1" 0 0) (C52_v "q2" 4 0); mkT (C52_v "q4" 4 4) (C52_v "q3" 0 4) (C52_v "q2" 4 0)].
  split; [vm_compute; reflexivity|]. split; [cbn; repeat constructor; cbn; intuition discriminate|].
  split; [right; left; reflexivity|]. split; [vm_compute; reflexivity|]. split; [discriminate|reflexivity].
Qed.
Print Assumptions C53_independent_refuted.
Example C53_example : triangulate (mkCol [C53_square; C53_line] []) =
  Ok [("L2", [mkTri "q3" "q1" "q2"; mkTri "q4" "q3" "q2"])].
Proof. vm_compute. reflexivity. Qed.
