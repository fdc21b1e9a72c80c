(** The graph read from a file: its edges, components and vertices. *)
From Coq Require Import Lia Sorted Permutation Relation_Operators Wf_Z.
From Verif Require Import Lib Tools Spec_Geo Spec_Tools Pf_Geo Pf_Tools.
Set Implicit Arguments.
Local Open Scope Z_scope.

Section Graph.
Context {F : Type} {NF : Num F}.
Implicit Types (p q a b : Geo F) (lines : list (list (Geo F))).


Lemma ends_in lines p q : ends lines p q -> In p (List.concat lines) /\ In q (List.concat lines).
Proof. intros (r & H). split; apply in_concat; exists (p :: q :: r); (split; [exact H|cbn; auto]). Qed.

(** entries of the vertex map are determined by their point *)
Lemma extract_points fuel v pts vm k k' q : extract fuel v pts = Ok vm -> In (k, q) vm -> In (k', q) vm -> k = k'.
Proof.
  intros E H H'. destruct (extract_spec _ _ _ E) as (_ & B & C & _). clear E.
  assert (Sq := proj2 (B _ H)). cbn [snd] in Sq. clear B.
  induction C as [|x t C IH Hx]; [destruct H|]. rewrite Forall_forall in Hx. destruct H as [->|H], H' as [H'|H'].
  - congruence.
  - specialize (Hx _ H'). cbn in Hx. congruence.
  - subst x. specialize (Hx _ H). cbn in Hx. congruence.
  - exact (IH H H').
Qed.

Section Fixed.
Variables (fuel : nat) (ord : list (Z * Geo F) -> list (Z * Geo F)) (lines : list (list (Geo F))) (vm : list (Z * Geo F)).
Hypothesis O : any_order ord.
Hypothesis T : two_points lines.
Hypothesis X : extract fuel 0 (List.concat lines) = Ok vm.

Lemma pts_inj k k' q : In (k, q) vm -> In (k', q) vm -> k = k'.
Proof. exact (@extract_points _ _ _ _ k k' q X). Qed.

Definition snap p : Geo F := match find_vertex ord vm p with Ok v => vm_get vm v | _ => p end.

Lemma get_in k q : In (k, q) vm -> vm_get vm k = q.
Proof. intros H. apply vm_get_in; [|exact H]. intros q' H'. exact (extract_ids _ _ _ X _ _ _ H H'). Qed.

Lemma find_in p : In p (List.concat lines) -> exists v, find_vertex ord vm p = Ok v /\ In (v, snap p) vm /\ same_point p (snap p) = true.
Proof.
  intros H. destruct (extract_spec _ _ _ X) as (_ & _ & _ & D).
  destruct (@find_vertex_ok _ _ ord vm p O (D p H)) as (v & q & E & I & S). exists v. unfold snap. rewrite E, (get_in _ _ I). auto.
Qed.

Lemma snap_in p : In p (List.concat lines) -> In (snap p) (List.concat lines) /\ same_point p (snap p) = true.
Proof.
  intros H. destruct (find_in p H) as (v & _ & I & S). split; [|exact S].
  destruct (extract_spec _ _ _ X) as (_ & B & _). exact (proj1 (B _ I)).
Qed.

Lemma adj_fold ls : (forall l, In l ls -> In l lines) -> forall m, keys_sorted m ->
  exists m', fold_left (fun acc line => m <- acc ;;
    match line with
    | p1 :: p2 :: _ => v1 <- find_vertex ord vm p1 ;; v2 <- find_vertex ord vm p2 ;; Ok (adj_insert v2 v1 (adj_insert v1 v2 m))
    | _ => UB
    end) ls (Ok m) = Ok m' /\ keys_sorted m' /\
    (forall v w, adj_rel m' v w <-> adj_rel m v w \/
       exists p q, ends ls p q /\ ((find_vertex ord vm p = Ok v /\ find_vertex ord vm q = Ok w) \/ (find_vertex ord vm q = Ok v /\ find_vertex ord vm p = Ok w))).
Proof.
  induction ls as [|l t IH]; intros Hl m S.
  - exists m. split; [reflexivity|]. split; [exact S|]. intros v w. split; [auto|]. intros [H|(p & q & (r & []) & _)]. exact H.
  - assert (Hi := Hl l (or_introl eq_refl)). assert (L := T l Hi). destruct l as [|p [|q r]]; [cbn in L; lia..|].
    assert (E : ends lines p q) by (exists r; exact Hi). destruct (ends_in E) as [Ep Eq].
    destruct (find_in p Ep) as (v & Fv & _). destruct (find_in q Eq) as (w & Fw & _).
    cbn [fold_left bind]. rewrite Fv, Fw. cbn [bind].
    destruct (IH (fun l Hx => Hl l (or_intror Hx)) (adj_insert w v (adj_insert v w m))) as (m' & R & S' & H).
    { apply adj_insert_sorted, adj_insert_sorted, S. }
    exists m'. split; [exact R|]. split; [exact S'|]. intros a b. rewrite H, !adj_insert_rel. split.
    + intros [[[-> ->]|[[-> ->]|K]]|(p' & q' & (r' & K) & K')].
      * right. exists p, q. split; [exists r; left; reflexivity|auto].
      * right. exists p, q. split; [exists r; left; reflexivity|auto].
      * left; exact K.
      * right. exists p', q'. split; [exists r'; right; exact K|exact K'].
    + intros [K|(p' & q' & (r' & [K|K]) & K')]; [auto| |].
      * injection K as <- <- <-. left. destruct K' as [[K1 K2]|[K1 K2]]; [right; left|left]; (split; congruence).
      * right. exists p', q'. split; [exists r'; exact K|exact K'].
Qed.

Lemma adj_of_spec : exists m, adj_of ord vm lines = Ok m /\ keys_sorted m /\
  (forall v w, adj_rel m v w <-> exists p q, ends lines p q /\
     ((find_vertex ord vm p = Ok v /\ find_vertex ord vm q = Ok w) \/ (find_vertex ord vm q = Ok v /\ find_vertex ord vm p = Ok w))).
Proof.
  destruct (@adj_fold lines (fun l H => H) []) as (m & R & S & H); [constructor|]. exists m. split; [exact R|]. split; [exact S|].
  intros v w. rewrite H. split; [intros [(s & [] & _)|K]; exact K|auto].
Qed.

(** every adjacency entry has a non-empty set *)
Definition nonempty (m : list (Z * list Z)) : Prop := forall v, In v (map fst m) -> exists w, adj_rel m v w.

Lemma adj_nonempty m (a b : Z) : nonempty m -> nonempty (adj_insert a b m).
Proof.
  intros H v Hv. apply adj_insert_keys in Hv. destruct Hv as [->|Hv].
  - exists b. apply adj_insert_rel. auto.
  - destruct (H v Hv) as [w Hw]. exists w. apply adj_insert_rel. auto.
Qed.

Lemma adj_of_nonempty m : adj_of ord vm lines = Ok m -> nonempty m.
Proof.
  unfold adj_of. clear T X. assert (N : nonempty []) by (intros v []). revert N. generalize (@nil (Z * list Z)).
  induction lines as [|l t IH]; intros m0 N R.
  - cbn in R. injection R as <-. exact N.
  - cbn [fold_left bind] in R.
    assert (Bad : forall r : res (list (Z * list Z)), (forall x, r <> Ok x) -> fold_left (fun acc line => m <- acc ;;
      match line with
      | p1 :: p2 :: _ => v1 <- find_vertex ord vm p1 ;; v2 <- find_vertex ord vm p2 ;; Ok (adj_insert v2 v1 (adj_insert v1 v2 m))
      | _ => UB
      end) t r = Ok m -> False).
    { clear. intros r Hr. induction t as [|x t IH] in r, Hr |- *; cbn [fold_left]; [intros E; exact (Hr _ E)|].
      apply IH. intros y. destruct r; cbn [bind]; try discriminate. exfalso. eapply Hr; reflexivity. }
    destruct l as [|p [|q r]]; try (exfalso; eapply Bad; [|exact R]; discriminate).
    destruct (find_vertex ord vm p) as [v1| | |] eqn:E1; cbn [bind] in R; try (exfalso; eapply Bad; [|exact R]; discriminate).
    destruct (find_vertex ord vm q) as [v2| | |] eqn:E2; cbn [bind] in R; try (exfalso; eapply Bad; [|exact R]; discriminate).
    eapply IH; [|exact R]. apply adj_nonempty, adj_nonempty, N.
Qed.

(** the relation on vertex numbers is the drawing of the snapped points *)
Lemma drawn_ids a b : drawn lines snap a b <-> exists v w p q, ends lines p q /\ In (v, a) vm /\ In (w, b) vm /\
  ((find_vertex ord vm p = Ok v /\ find_vertex ord vm q = Ok w) \/ (find_vertex ord vm q = Ok v /\ find_vertex ord vm p = Ok w)).
Proof.
  split.
  - intros (p & q & E & H). destruct (ends_in E) as [Ep Eq]. destruct (find_in p Ep) as (v & Fv & Iv & _). destruct (find_in q Eq) as (w & Fw & Iw & _).
    destruct H as [[-> ->]|[-> ->]]; [exists v, w, p, q|exists w, v, p, q]; auto 8.
  - intros (v & w & p & q & E & Iv & Iw & H). exists p, q. split; [exact E|]. unfold snap.
    destruct H as [[-> ->]|[-> ->]]; rewrite (get_in _ _ Iv), (get_in _ _ Iw); auto.
Qed.

Theorem graph_shape : exists g m am dm L E, parse_graph fuel ord lines = Ok g /\ adj_of ord vm lines = Ok m /\ inv vm E g am dm L /\
  (forall v w, In (v, w) E <-> adj_rel m v w) /\
  (forall v w, adj_rel m v w -> adj_rel m w v) /\
  (forall v, In v (map fst dm) <-> exists w, adj_rel m v w) /\
  (forall v w, adj_rel m v w -> exists a b, In (v, a) vm /\ In (w, b) vm) /\
  (forall v w a b, In (v, a) vm -> In (w, b) vm -> (adj_rel m v w <-> drawn lines snap a b)).
Proof.
  destruct adj_of_spec as (m & Em & Sm & Hm).
  destruct (@inv_visits _ _ vm m [] graph0 [] [] [] (inv0 vm) Sm) as (g & am & dm & L & E & R & I & HE & Hd & _); [intros u v []|].
  assert (HE' : forall v w, In (v, w) E <-> adj_rel m v w) by (intros v w; rewrite HE; cbn; tauto).
  assert (Sy : forall v w, adj_rel m v w -> adj_rel m w v).
  { intros v w H. apply Hm in H. destruct H as (p & q & K & K'). apply Hm. exists p, q. tauto. }
  assert (Pv : forall v w, adj_rel m v w -> exists a b, In (v, a) vm /\ In (w, b) vm).
  { intros v w H. apply Hm in H. destruct H as (p & q & K & K'). destruct (ends_in K) as [Ep Eq].
    destruct (find_in p Ep) as (v' & Fv & Iv & _). destruct (find_in q Eq) as (w' & Fw & Iw & _).
    destruct K' as [[K1 K2]|[K1 K2]]; [exists (snap p), (snap q)|exists (snap q), (snap p)]; split; congruence. }
  exists g, m, am, dm, L, E. split; [unfold parse_graph; rewrite X; cbn [bind]; rewrite Em; cbn [bind]; rewrite R; reflexivity|].
  split; [exact Em|]. split; [exact I|]. split; [exact HE'|]. split; [exact Sy|]. split; [|split; [exact Pv|]].
  - intros v. rewrite Hd. cbn [map In]. split.
    + intros [H|[]]. exact (adj_of_nonempty Em v H).
    + intros (w & s & H & _). left. eapply in_fst; exact H.
  - intros v w a b Ia Ib. rewrite drawn_ids, Hm. split.
    + intros (p & q & K & K'). exists v, w, p, q. auto.
    + intros (v' & w' & p & q & K & Ia' & Ib' & K'). exists p, q. split; [exact K|].
      rewrite (@pts_inj _ _ _ Ia Ia'), (@pts_inj _ _ _ Ib Ib'). exact K'.
Qed.

Lemma linked_L (g : graph (Geo F)) L i j : edges_added g L -> (linked g i j <-> In (i, j) L \/ In (j, i) L).
Proof.
  intros A. destruct (edges_exact A) as [_ H]. unfold linked. rewrite !H. destruct (Z.le_ge_cases i j); tauto.
Qed.

Lemma verts_fun (g : graph (Geo F)) i a b : graph_built g -> In (i, a) (g_verts g) -> In (i, b) (g_verts g) -> a = b.
Proof.
  intros B H H'. destruct (graph_wf_built B) as (W & _). eapply nodup_fun; [|exact H|exact H'].
  rewrite W. unfold zseq. apply FinFun.Injective_map_NoDup; [intros x y Hxy; lia|apply seq_NoDup].
Qed.

Theorem graph_main : exists g, parse_graph fuel ord lines = Ok g /\ graph_built g /\
  (forall a b, seg g a b <-> drawn lines snap a b) /\
  (forall i a, In (i, a) (g_verts g) -> exists b, drawn lines snap a b) /\
  (forall i a j b, In (i, a) (g_verts g) -> In (j, b) (g_verts g) ->
     (connected (linked g) i j <-> connected (drawn lines snap) a b)) /\
  ((exists i j a, i <> j /\ In (i, a) (g_verts g) /\ In (j, a) (g_verts g)) <-> exists a b, a <> b /\ drawn lines snap a b).
Proof.
  destruct graph_shape as (g & m & am & dm & L & E & R & Em & I & HE & Sy & Hd & Pv & Hdr). exists g. split; [exact R|].
  assert (I' := I). destruct I' as [Ib Ie IL IE Idm Iam Iv Ibd Ind Ina Iinj Idup]. split; [exact Ib|].
  assert (LK := fun i j => linked_L i j Ie).
  (** a copy of a number: its point *)
  assert (Cp : forall i a, In (i, a) (g_verts g) <-> exists v, In (v, a) vm /\ (In (v, i) dm \/ In (v, i) am)).
  { intros i a. rewrite Iv. split; intros (v & H & K).
    - assert (A : exists w, adj_rel m v w).
      { destruct K as [K|K]; [apply Hd; eapply in_fst; exact K|]. destruct (Iam v (in_fst _ _ _ K)) as [H'|[u Hu]]; [apply Hd; exact H'|].
        apply HE in Hu. exists u. apply Sy, Hu. }
      destruct A as [w A]. destruct (Pv v w A) as (a' & _ & Ha & _). exists v. split; [|exact K]. rewrite H, (get_in _ _ Ha). exact Ha.
    - exists v. split; [symmetry; apply get_in, H|exact K]. }
  assert (Key : forall v i, In (v, i) dm \/ In (v, i) am -> In v (map fst dm)).
  { intros v i [K|K]; [eapply in_fst; exact K|]. destruct (Iam v (in_fst _ _ _ K)) as [H|[u Hu]]; [exact H|]. apply Hd. exists u. apply Sy, HE, Hu. }
  (** an adjacent pair gives an edge *)
  assert (Ed : forall v w i j, adj_rel m v w -> In (v, i) dm -> In (w, j) am -> linked g i j).
  { intros v w i j A Hi Hj. apply LK. left. apply IL. exists v, w. split; [apply HE, A|auto]. }
  assert (SegD : forall a b, seg g a b <-> drawn lines snap a b).
  { intros a b. split.
    - intros (i & j & K & Ha & Hb). apply Cp in Ha, Hb. destruct Ha as (v & Va & Hi), Hb as (w & Wb & Hj). apply (Hdr v w a b Va Wb).
      apply LK in K. destruct K as [K|K]; apply IL in K; destruct K as (x & y & Exy & Hx & Hy).
      + rewrite (Iinj v x i Hi (or_introl Hx)), (Iinj w y j Hj (or_intror Hy)). apply HE, Exy.
      + rewrite (Iinj w x j Hj (or_introl Hx)), (Iinj v y i Hi (or_intror Hy)). apply Sy, HE, Exy.
    - intros D. assert (D' := D). apply drawn_ids in D'. destruct D' as (v & w & _ & _ & _ & Va & Wb & _).
      apply (Hdr v w a b Va Wb) in D. destruct (fst_in v dm) as [i Hi]; [apply Hd; exists w; exact D|].
      destruct (fst_in w am) as [j Hj]; [apply Idm, Hd; exists v; apply Sy, D|].
      exists i, j. split; [apply (Ed v w); assumption|]. split; apply Cp; [exists v|exists w]; auto. }
  split; [exact SegD|].
  split.
  { intros i a H. apply Cp in H. destruct H as (v & Va & K). apply Key in K. apply Hd in K. destruct K as [w A].
    destruct (Pv v w A) as (_ & b & _ & Wb). exists b. apply (Hdr v w a b Va Wb), A. }
  (** the two copies of a number are connected *)
  assert (Copies : forall v i j, In (v, i) dm \/ In (v, i) am -> In (v, j) dm \/ In (v, j) am -> connected (linked g) i j).
  { assert (Half : forall v, 0 <= v -> forall i j, In (v, i) dm -> In (v, j) am -> connected (linked g) i j).
    { intros v Hv. pattern v. apply Zlt_0_ind; [|exact Hv]. clear v Hv. intros v IH Hv i j Hi Hj.
      destruct (Z.eq_dec i j) as [->|N]; [apply rst_refl|].
      assert (U : exists u, u < v /\ In (u, v) E).
      { assert (Dec : (exists u, u < v /\ In (u, v) E) \/ ~ exists u, u < v /\ In (u, v) E).
        { clear. induction E as [|[x y] t IH]; [right; intros (u & _ & [])|]. destruct IH as [(u & H & K)|H]; [left; exists u; split; [exact H|right; exact K]|].
          destruct (Z.eq_dec y v) as [->|Ny].
          - destruct (Z_lt_dec x v) as [Hx|Hx]; [left; exists x; split; [exact Hx|left; reflexivity]|].
            right. intros (u & Hu & [K|K]); [injection K as ->; lia|apply H; exists u; auto].
          - right. intros (u & Hu & [K|K]); [injection K as -> ->; congruence|apply H; exists u; auto]. }
        destruct Dec as [D|D]; [exact D|]. exfalso. apply N. apply (Idup v i j Hi Hj), D. }
      destruct U as (u & Hu & HuE). apply HE in HuE. destruct (Pv u v HuE) as (pu & _ & Vu & _).
      assert (0 <= u). { destruct (extract_spec _ _ _ X) as (A & _). apply In_nth_error in Vu. destruct Vu as [n Vu]. apply A in Vu. cbn [fst] in Vu. lia. }
      destruct (fst_in u dm) as [iu Hiu]; [apply Hd; exists v; exact HuE|]. destruct (fst_in u am) as [ju Hju]; [apply Idm, Hd; exists v; exact HuE|].
      apply rst_trans with ju; [apply rst_step, (Ed v u); [apply Sy, HuE|exact Hi|exact Hju]|].
      apply rst_trans with iu; [apply rst_sym, (IH u); [lia|exact Hiu|exact Hju]|]. apply rst_step, (Ed u v); assumption. }
    assert (NN : forall v i, In (v, i) dm \/ In (v, i) am -> 0 <= v).
    { intros v i K. apply Key, Hd in K. destruct K as [w A]. destruct (Pv v w A) as (a & _ & Va & _).
      destruct (extract_spec _ _ _ X) as (B & _). apply In_nth_error in Va. destruct Va as [n Va]. apply B in Va. cbn [fst] in Va. lia. }
    intros v i j Hi Hj. assert (Hv := NN v i Hi). destruct Hi as [Hi|Hi], Hj as [Hj|Hj].
    - rewrite (nodup_fun _ _ _ _ Ind Hi Hj). apply rst_refl.
    - exact (Half v Hv i j Hi Hj).
    - apply rst_sym. exact (Half v Hv j i Hj Hi).
    - rewrite (nodup_fun _ _ _ _ Ina Hi Hj). apply rst_refl. }
  assert (Adj : forall v w i j, adj_rel m v w -> In (v, i) dm \/ In (v, i) am -> In (w, j) dm \/ In (w, j) am -> connected (linked g) i j).
  { intros v w i j A Hi Hj. destruct (fst_in v dm) as [i' Hi']; [apply Hd; exists w; exact A|].
    destruct (fst_in w am) as [j' Hj']; [apply Idm, Hd; exists v; apply Sy, A|].
    apply rst_trans with i'; [apply (Copies v); auto|]. apply rst_trans with j'; [apply rst_step, (Ed v w); assumption|]. apply (Copies w); auto. }
  split.
  - intros i a j b Ha Hb. split.
    + intros C. assert (K : i = j \/ exists a b, In (i, a) (g_verts g) /\ In (j, b) (g_verts g) /\ connected (drawn lines snap) a b).
      { clear a b Ha Hb. induction C as [i j C|i|i j C IH|i j k C1 IH1 C2 IH2].
        - right. assert (C' := C). apply LK in C'.
          assert (V : forall x y, In (x, y) L -> (exists a, In (x, a) (g_verts g)) /\ exists b, In (y, b) (g_verts g)).
          { intros x y H. apply IL in H. destruct H as (v & w & H & Hx & Hy). apply HE in H. destruct (Pv v w H) as (a & b & Va & Wb).
            split; [exists a|exists b]; apply Cp; [exists v|exists w]; auto. }
          assert (V' : (exists a, In (i, a) (g_verts g)) /\ exists b, In (j, b) (g_verts g)).
          { destruct C' as [C'|C']; apply V in C'; tauto. }
          destruct V' as [[a Ha] [b Hb]]. exists a, b. split; [exact Ha|]. split; [exact Hb|]. apply rst_step, SegD. exists i, j. auto.
        - auto.
        - destruct IH as [->|(a & b & H1 & H2 & H3)]; [auto|]. right. exists b, a. split; [exact H2|]. split; [exact H1|]. apply rst_sym, H3.
        - destruct IH1 as [->|(a & b & H1 & H2 & H3)]; [exact IH2|]. destruct IH2 as [<-|(b' & c & K1 & K2 & K3)]; [right; exists a, b; auto|].
          right. exists a, c. split; [exact H1|]. split; [exact K2|]. apply rst_trans with b; [exact H3|]. rewrite (verts_fun _ _ _ Ib H2 K1). exact K3. }
      destruct K as [->|(a' & b' & H1 & H2 & H3)].
      * rewrite (verts_fun _ _ _ Ib Ha Hb). apply rst_refl.
      * rewrite (verts_fun _ _ _ Ib Ha H1), (verts_fun _ _ _ Ib Hb H2). exact H3.
    + intros C. revert i j Ha Hb.
      induction C as [a b C|a|a b C IH|a b c C1 IH1 C2 IH2]; intros i j Ha Hb.
      * apply Cp in Ha, Hb. destruct Ha as (v & Va & Hi), Hb as (w & Wb & Hj). apply (Adj v w); [|exact Hi|exact Hj]. apply (Hdr v w a b Va Wb), C.
      * apply Cp in Ha, Hb. destruct Ha as (v & Va & Hi), Hb as (w & Wb & Hj). apply (Copies v); [exact Hi|]. rewrite (@pts_inj _ _ _ Va Wb). exact Hj.
      * apply rst_sym, IH; assumption.
      * assert (K : a = b \/ exists k, In (k, b) (g_verts g)).
        { clear - C1 SegD. assert (K : a = b \/ ((exists i, In (i, a) (g_verts g)) /\ exists j, In (j, b) (g_verts g))).
          { induction C1 as [a b C|a|a b C IH|a b c C1 IH1 C2 IH2]; [|auto| |].
            - right. apply SegD in C. destruct C as (i & j & _ & Ha & Hb). eauto.
            - destruct IH as [->|[H1 H2]]; auto.
            - destruct IH1 as [->|[H1 H2]]; [exact IH2|]. destruct IH2 as [<-|[H3 H4]]; auto. }
          destruct K as [->|[_ K]]; auto. }
        destruct K as [->|[k Hk]]; [apply IH2; assumption|]. apply rst_trans with k; [apply IH1; assumption|apply IH2; assumption].
  - split.
    + intros (i & j & a & N & Ha & Hb). apply Cp in Ha, Hb. destruct Ha as (v & Va & Hi), Hb as (w & Wb & Hj).
      assert (w = v) by (symmetry; exact (@pts_inj _ _ _ Va Wb)). subst w.
      assert (U : exists i j, In (v, i) dm /\ In (v, j) am /\ i <> j).
      { destruct Hi as [Hi|Hi], Hj as [Hj|Hj]; [exfalso; apply N; exact (nodup_fun _ _ _ _ Ind Hi Hj)|eauto|exists j, i; auto|exfalso; apply N; exact (nodup_fun _ _ _ _ Ina Hi Hj)]. }
      destruct U as (i' & j' & Hi' & Hj' & N').
      assert (U : ~ ~ exists u, u < v /\ In (u, v) E) by (intros U; apply N', (Idup v i' j' Hi' Hj'), U).
      assert (Dec : (exists b, a <> b /\ drawn lines snap a b) \/ ~ exists u, u < v /\ In (u, v) E).
      { clear - HE Hdr Pv Sy Va X. assert (HE' : forall x y, In (x, y) E -> adj_rel m x y) by (intros x y; apply HE). clear HE. induction E as [|[x y] t IH]; [right; intros (u & _ & [])|].
        destruct (Z.eq_dec y v) as [->|Ny]; [destruct (Z_lt_dec x v) as [Hx|Hx]|].
        - left. assert (A := HE' x v (or_introl eq_refl)). destruct (Pv x v A) as (b & _ & Xb & _). exists b.
          split; [intros ->; rewrite (@pts_inj _ _ _ Xb Va) in Hx; lia|]. apply (Hdr v x a b Va Xb), Sy, A.
        - destruct IH as [IH|IH]; [intros x' y' H; apply HE'; right; exact H|left; exact IH|].
          right. intros (u & Hu & [K|K]); [injection K as ->; lia|apply IH; exists u; auto].
        - destruct IH as [IH|IH]; [intros x' y' H; apply HE'; right; exact H|left; exact IH|].
          right. intros (u & Hu & [K|K]); [injection K as -> ->; congruence|apply IH; exists u; auto]. }
      destruct Dec as [(b & Nb & D)|D]; [exists a, b; auto|contradiction].
    + intros (a & b & N & D). assert (D' := D). apply drawn_ids in D'. destruct D' as (v & w & _ & _ & _ & Va & Wb & _).
      apply (Hdr v w a b Va Wb) in D.
      assert (v <> w) by (intros ->; apply N; exact (extract_ids _ _ _ X _ _ _ Va Wb)).
      assert (U : exists x y c, x < y /\ adj_rel m x y /\ In (y, c) vm).
      { destruct (Z_lt_dec v w); [exists v, w, b; auto|exists w, v, a; split; [lia|]; split; [apply Sy, D|exact Va]]. }
      destruct U as (x & y & c & Lt & A & Yc).
      destruct (fst_in y dm) as [i Hi]; [apply Hd; exists x; apply Sy, A|]. destruct (fst_in y am) as [j Hj]; [apply Idm, Hd; exists x; apply Sy, A|].
      exists i, j, c. split; [intros K; apply (Idup y i j Hi Hj) in K; apply K; exists x; split; [exact Lt|apply HE, A]|].
      split; apply Cp; exists y; auto.
Qed.

(** at every place one or two vertices *)
Theorem graph_copies : exists g, parse_graph fuel ord lines = Ok g /\
  forall a, (exists b, drawn lines snap a b) ->
    exists i j, (forall k, In (k, a) (g_verts g) <-> k = i \/ k = j) /\
      (i = j <-> ~ exists b, drawn lines snap a b /\ earlier vm b a).
Proof.
  destruct graph_shape as (g & m & am & dm & L & E & R & Em & I & HE & Sy & Hd & Pv & Hdr). exists g. split; [exact R|].
  destruct I as [Ib Ie IL IE Idm Iam Iv Ibd Ind Ina Iinj Idup]. intros a [b D].
  assert (D' := D). apply drawn_ids in D'. destruct D' as (v & w & _ & _ & _ & Va & Wb & _). apply (Hdr v w a b Va Wb) in D.
  destruct (fst_in v dm) as [i Hi]; [apply Hd; exists w; exact D|]. destruct (fst_in v am) as [j Hj]; [apply Idm, Hd; exists w; exact D|].
  exists i, j. split.
  - intros k. rewrite Iv. split.
    + intros (x & Hp & K).
      assert (A : exists y, adj_rel m x y).
      { destruct K as [K|K]; [apply Hd; eapply in_fst; exact K|]. destruct (Iam x (in_fst _ _ _ K)) as [H'|[u Hu]]; [apply Hd; exact H'|].
        apply HE in Hu. exists u. apply Sy, Hu. }
      destruct A as [y A]. destruct (Pv x y A) as (a' & _ & Ha & _). rewrite (get_in _ _ Ha) in Hp. subst a'.
      assert (x = v) by exact (@pts_inj _ _ _ Ha Va). subst x.
      destruct K as [K|K]; [left; exact (nodup_fun _ _ _ _ Ind K Hi)|right; exact (nodup_fun _ _ _ _ Ina K Hj)].
    + intros [->| ->]; exists v; (split; [symmetry; apply get_in, Va|auto]).
  - rewrite (Idup v i j Hi Hj). split; intros H K; apply H.
    + destruct K as (c & Dc & u & v' & Uc & Va' & Lt). assert (v' = v) by exact (@pts_inj _ _ _ Va' Va). subst v'.
      exists u. split; [exact Lt|]. apply HE, Sy. apply (Hdr v u a c Va Uc), Dc.
    + destruct K as (u & Lt & Hu). apply HE in Hu. destruct (Pv u v Hu) as (c & _ & Uc & _). exists c. split; [apply (Hdr v u a c Va Uc), Sy, Hu|].
      exists u, v. auto.
Qed.
End Fixed.
End Graph.
