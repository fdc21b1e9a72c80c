(** Graph building of the verification tools. *)
From Coq Require Import Lia Sorted Permutation.
From Verif Require Import Lib Tools Spec_Geo Spec_Tools Pf_Geo.
Set Implicit Arguments.
Local Open Scope Z_scope.

Section Vertices.
Context {F : Type} {NF : Num F}.
Implicit Types (p q : Geo F) (pts : list (Geo F)) (vm : list (Z * Geo F)).

Lemma in_remove_same p q pts : In q (remove_same p pts) <-> In q pts /\ same_point q p = false.
Proof. unfold remove_same. rewrite filter_In, negb_true_iff. reflexivity. Qed.

Lemma extract_stuck fuel v p pts : same_point p p = false -> extract fuel v (p :: pts) = OutOfFuel.
Proof.
  intros H. revert v pts. induction fuel as [|n IH]; intros v pts; [reflexivity|].
  cbn [extract]. unfold remove_same. cbn [filter]. rewrite H. cbn [negb]. fold (remove_same p pts). rewrite IH. reflexivity.
Qed.

Lemma extract_hangs p pts : In p pts -> (forall q, In q pts -> same_point p q = false) ->
  forall fuel v, extract fuel v pts = OutOfFuel.
Proof.
  intros Hp Hq fuel. revert pts Hp Hq. induction fuel as [|n IH]; intros pts Hp Hq v; (destruct pts as [|x t]; [destruct Hp|]); [reflexivity|].
  cbn [extract]. rewrite IH; [reflexivity| |].
  - apply in_remove_same. split; [exact Hp|]. apply Hq. left; reflexivity.
  - intros q H. apply Hq. apply in_remove_same in H. apply H.
Qed.

Lemma filter_length_le {X} (f : X -> bool) l : (List.length (filter f l) <= List.length l)%nat.
Proof. induction l as [|y t IH]; cbn; [lia|]. destruct (f y); cbn; lia. Qed.
Lemma filter_length_lt {X} (f : X -> bool) l x : In x l -> f x = false -> (List.length (filter f l) < List.length l)%nat.
Proof.
  induction l as [|y t IH]; intros H E; [destruct H|]. cbn [filter].
  assert (L : (List.length (filter f t) <= List.length t)%nat) by apply filter_length_le.
  destruct H as [->|H]; [rewrite E; cbn; lia|]. specialize (IH H E). destruct (f y); cbn; lia.
Qed.

Lemma extract_total fuel v pts : (forall p, In p pts -> same_point p p = true) -> (List.length pts <= fuel)%nat ->
  exists vm, extract fuel v pts = Ok vm.
Proof.
  revert v pts. induction fuel as [|n IH]; intros v pts H L; (destruct pts as [|p t]; [exists []; reflexivity|]); [cbn in L; lia|].
  cbn [extract]. destruct (IH (v + 1) (remove_same p (p :: t))) as [vm E].
  - intros q Hq. apply in_remove_same in Hq. apply H, Hq.
  - assert (X := @filter_length_lt _ (fun q => negb (same_point q p)) (p :: t) p (or_introl eq_refl)).
    cbv beta in X. rewrite (H p (or_introl eq_refl)) in X. specialize (X eq_refl). unfold remove_same. cbn [List.length] in *. lia.
  - rewrite E. eexists. reflexivity.
Qed.

Lemma extract_spec fuel v pts vm : extract fuel v pts = Ok vm ->
  (forall i e, nth_error vm i = Some e -> fst e = v + 1 + Z.of_nat i) /\
  (forall e, In e vm -> In (snd e) pts /\ same_point (snd e) (snd e) = true) /\
  StronglySorted (fun e e' => same_point (snd e') (snd e) = false) vm /\
  (forall p, In p pts -> exists e, In e vm /\ same_point p (snd e) = true).
Proof.
  revert v pts vm. induction fuel as [|n IH]; intros v pts vm E; (destruct pts as [|p t]; cbn [extract] in E;
    [injection E as <-; split; [intros [|i]; discriminate|split; [intros _ []|split; [constructor|intros _ []]]]|]); [discriminate|].
  assert (Sp : same_point p p = true).
  { destruct (same_point p p) eqn:S; [reflexivity|]. exfalso.
    assert (X := @extract_stuck (Datatypes.S n) v p t S). cbn [extract] in X. rewrite E in X. discriminate. }
  destruct (extract n (v + 1) (remove_same p (p :: t))) as [rest| | |] eqn:R; cbn [bind] in E; try discriminate. injection E as <-.
  destruct (IH _ _ _ R) as (A & B & C & D). split; [|split; [intros e H; split|split]].
  - intros [|i] q Hq; cbn in Hq; [injection Hq as <-; cbn; lia|]. rewrite (A _ _ Hq). lia.
  - destruct H as [<-|H]; [left; reflexivity|]. apply B in H. destruct H as [H _]. apply in_remove_same in H. apply H.
  - destruct H as [<-|H]; [exact Sp|]. apply B in H. apply H.
  - constructor; [exact C|]. apply Forall_forall. intros e He. cbn [snd]. apply B in He. destruct He as [He _]. apply in_remove_same in He. apply He.
  - intros q Hq. destruct (same_point q p) eqn:S.
    + exists (v + 1, p). split; [left; reflexivity|exact S].
    + destruct (D q) as (e & He & Se); [apply in_remove_same; auto|]. exists e. split; [right; exact He|exact Se].
Qed.

Lemma extract_ids fuel v pts vm : extract fuel v pts = Ok vm -> forall k q q', In (k, q) vm -> In (k, q') vm -> q = q'.
Proof.
  intros E k q q' H H'. destruct (extract_spec _ _ _ E) as (A & _).
  apply In_nth_error in H. apply In_nth_error in H'. destruct H as [i H], H' as [j H'].
  assert (X := A _ _ H). assert (Y := A _ _ H'). cbn in X, Y. assert (i = j) by lia. subst j. congruence.
Qed.

Lemma vm_get_in vm k q : (forall q', In (k, q') vm -> q = q') -> In (k, q) vm -> vm_get vm k = q.
Proof.
  intros U H. unfold vm_get. destruct (find _ vm) as [[k' q']|] eqn:E.
  - apply find_some in E. destruct E as [I K]. cbn in K. apply Z.eqb_eq in K. subst k'. cbn. symmetry. apply U. exact I.
  - exfalso. assert (X := find_none _ _ E _ H). cbn in X. apply Z.eqb_neq in X. congruence.
Qed.

Lemma find_vertex_ok ord vm p : any_order ord -> (exists e, In e vm /\ same_point p (snd e) = true) ->
  exists v q, find_vertex ord vm p = Ok v /\ In (v, q) vm /\ same_point p q = true.
Proof.
  intros O (e & He & Se). unfold find_vertex. destruct (find _ (ord vm)) as [[v q]|] eqn:E.
  - apply find_some in E. destruct E as [I K]. exists v, q. split; [reflexivity|]. split; [|exact K].
    eapply Permutation_in; [apply Permutation_sym, O|exact I].
  - exfalso. assert (X := find_none _ _ E e). cbn in X. rewrite X in Se; [discriminate|]. eapply Permutation_in; [apply O|exact He].
Qed.
End Vertices.

(** ** Adjacency sets *)
Definition adj_rel (m : list (Z * list Z)) (v w : Z) : Prop := exists s, In (v, s) m /\ In w s.

Lemma zset_insert_in x y l : In y (zset_insert x l) <-> y = x \/ In y l.
Proof.
  induction l as [|z t IH]; cbn [zset_insert]; [cbn; intuition|].
  destruct (x <? z) eqn:E1; [cbn; intuition|]. destruct (z <? x) eqn:E2; [cbn; rewrite IH; intuition|].
  apply Z.ltb_ge in E1. apply Z.ltb_ge in E2. assert (x = z) by lia. subst z. cbn. intuition.
Qed.

Lemma adj_insert_rel a b m v w : adj_rel (adj_insert a b m) v w <-> (v = a /\ w = b) \/ adj_rel m v w.
Proof.
  unfold adj_rel. induction m as [|[k s] t IH]; cbn [adj_insert].
  - split; [intros (s & [E|[]] & H); injection E as -> <-; destruct H as [<-|[]]; left; auto|].
    intros [[-> ->]|(s & [] & _)]. exists [b]. split; left; reflexivity.
  - destruct (a <? k) eqn:E1; [|destruct (k <? a) eqn:E2].
    + split.
      * intros (r & [E|H] & I); [injection E as -> <-; destruct I as [<-|[]]; left; auto|]. right. exists r. auto.
      * intros [[-> ->]|(r & H & I)]; [exists [b]; split; left; reflexivity|exists r; split; [right; exact H|exact I]].
    + split.
      * intros (r & [E|H] & I); [injection E as -> <-; right; exists s; split; [left; reflexivity|exact I]|].
        destruct (proj1 IH (ex_intro _ r (conj H I))) as [X|(r' & H' & I')]; [left; exact X|right; exists r'; split; [right; exact H'|exact I']].
      * intros [X|(r & [E|H] & I)].
        -- destruct (proj2 IH (or_introl X)) as (r & H & I). exists r. split; [right; exact H|exact I].
        -- injection E as -> ->. exists r. split; [left; reflexivity|exact I].
        -- destruct (proj2 IH (or_intror (ex_intro _ r (conj H I)))) as (r' & H' & I'). exists r'. split; [right; exact H'|exact I'].
    + apply Z.ltb_ge in E1. apply Z.ltb_ge in E2. assert (a = k) by lia. subst k. split.
      * intros (r & [E|H] & I); [injection E as -> <-; apply zset_insert_in in I; destruct I as [->|I]; [left; auto|right; exists s; split; [left; reflexivity|exact I]]|].
        right. exists r. split; [right; exact H|exact I].
      * intros [[-> ->]|(r & [E|H] & I)].
        -- exists (zset_insert b s). split; [left; reflexivity|apply zset_insert_in; auto].
        -- injection E as -> ->. exists (zset_insert b r). split; [left; reflexivity|apply zset_insert_in; auto].
        -- exists r. split; [right; exact H|exact I].
Qed.

Definition keys_sorted (m : list (Z * list Z)) : Prop := StronglySorted Z.lt (map fst m).
Lemma adj_insert_keys a b m k : In k (map fst (adj_insert a b m)) -> k = a \/ In k (map fst m).
Proof.
  induction m as [|[k' s] t IH]; cbn [adj_insert]; [cbn; intuition|]. destruct (a <? k'); [cbn; intuition|].
  destruct (k' <? a); cbn; intuition.
Qed.
Lemma adj_insert_sorted a b m : keys_sorted m -> keys_sorted (adj_insert a b m).
Proof.
  unfold keys_sorted. induction m as [|[k s] t IH]; cbn [adj_insert]; intros H; [repeat constructor|].
  cbn [map fst] in H. inversion H as [|? ? S A]; subst. destruct (a <? k) eqn:E1; [|destruct (k <? a) eqn:E2].
  - cbn [map fst]. apply Z.ltb_lt in E1. constructor; [exact H|]. constructor; [exact E1|]. eapply Forall_impl; [|exact A]. cbn; intros; lia.
  - cbn [map fst]. apply Z.ltb_lt in E2. constructor; [apply IH, S|]. apply Forall_forall. intros x Hx. apply adj_insert_keys in Hx.
    destruct Hx as [->|Hx]; [exact E2|]. rewrite Forall_forall in A. apply A, Hx.
  - cbn [map fst]. exact H.
Qed.

(** ** Building the graph *)
Lemma zfind_some k m i : zfind k m = Some i -> In (k, i) m.
Proof.
  unfold zfind. destruct (find _ m) as [[k' j]|] eqn:E; [|discriminate]. intros H. injection H as <-.
  apply find_some in E. destruct E as [I K]. cbn in K. apply Z.eqb_eq in K. subst k'. exact I.
Qed.
Lemma zfind_none k m : zfind k m = None -> ~ In k (map fst m).
Proof.
  unfold zfind. destruct (find _ m) eqn:E; [discriminate|]. intros _ H. apply in_map_iff in H. destruct H as ([k' j] & <- & I).
  assert (X := find_none _ _ E _ I). cbn in X. apply Z.eqb_neq in X. congruence.
Qed.
Lemma in_fst {X : Type} (k : Z) (i : X) m : In (k, i) m -> In k (map fst m).
Proof. intros H. apply in_map_iff. exists (k, i). auto. Qed.
Lemma fst_in {X : Type} (k : Z) (m : list (Z * X)) : In k (map fst m) -> exists i, In (k, i) m.
Proof. intros H. apply in_map_iff in H. destruct H as ([k' i] & <- & H). exists i. exact H. Qed.
Lemma nodup_fun {X : Type} (k : Z) (i j : X) m : NoDup (map fst m) -> In (k, i) m -> In (k, j) m -> i = j.
Proof.
  induction m as [|[k' x] t IH]; intros N H H'; [destruct H|]. cbn [map fst] in N. inversion N as [|? ? N1 N2]; subst.
  destruct H as [E|H], H' as [E'|H'].
  - congruence.
  - injection E as -> ->. exfalso. apply N1. eapply in_fst; exact H'.
  - injection E' as -> ->. exfalso. apply N1. eapply in_fst; exact H.
  - exact (IH N2 H H').
Qed.

Section Build.
Context {F : Type} {NF : Num F}.
Variable vm : list (Z * Geo F).
Notation pos v := (vm_get vm v).

Record inv (E : list (Z * Z)) (g : graph (Geo F)) (am dm : list (Z * Z)) (L : list (Z * Z)) : Prop := {
  i_built : graph_built g;
  i_edges : edges_added g L;
  i_L : forall i j, In (i, j) L <-> exists v w, In (v, w) E /\ In (v, i) dm /\ In (w, j) am;
  i_E : forall v w, In (v, w) E -> In v (map fst dm) /\ In w (map fst am);
  i_dm : forall v, In v (map fst dm) -> In v (map fst am);
  i_am : forall v, In v (map fst am) -> In v (map fst dm) \/ exists u, In (u, v) E;
  i_verts : forall i p, In (i, p) (g_verts g) <-> exists v, p = pos v /\ (In (v, i) dm \/ In (v, i) am);
  i_bound : forall v i, In (v, i) dm \/ In (v, i) am -> 0 <= i < next_id g;
  i_nd : NoDup (map fst dm);
  i_na : NoDup (map fst am);
  i_inj : forall v w i, In (v, i) dm \/ In (v, i) am -> In (w, i) dm \/ In (w, i) am -> v = w;
  i_dup : forall v i j, In (v, i) dm -> In (v, j) am -> (i = j <-> ~ exists u, u < v /\ In (u, v) E) }.

Lemma inv0 : inv [] graph0 [] [] [].
Proof.
  split; try (constructor; fail); try (cbn; intros; tauto).
  - intros i j. split; [intros []|intros (v & w & [] & _)].
  - intros i p. split; [intros []|intros (v & _ & [[]|[]])].
Qed.

Lemma next_add (g : graph (Geo F)) p : next_id (add_vertex g p) = next_id g + 1.
Proof. unfold next_id, add_vertex. cbn [g_verts]. rewrite app_length. cbn. lia. Qed.
Lemma verts_add (g : graph (Geo F)) (p : Geo F) i q : In (i, q) (g_verts (add_vertex g p)) <-> In (i, q) (g_verts g) \/ (i = next_id g /\ q = p).
Proof.
  unfold add_vertex. cbn [g_verts]. rewrite in_app_iff. cbn [In]. unfold next_id. split.
  - intros [H|[H|[]]]; [left; exact H|]. injection H as <- <-. right; auto.
  - intros [H|[-> ->]]; [left; exact H|right; left; reflexivity].
Qed.

(** starting vertex [v] *)
Lemma inv_start E g am dm L v : inv E g am dm L -> (forall u, In u (map fst dm) -> u < v) ->
  inv E (add_vertex g (pos v)) (zadd v (next_id g) am) ((v, next_id g) :: dm) L.
Proof.
  intros I Hv. destruct I as [Ib Ie IL IE Idm Iam Iv Ibd Ind Ina Iinj Idup].
  assert (Nv : ~ In v (map fst dm)) by (intros H; apply Hv in H; lia).
  assert (Nid : forall w i, In (w, i) dm \/ In (w, i) am -> i <> next_id g) by (intros w i H; apply Ibd in H; lia).
  assert (Bn : 0 <= next_id g) by (unfold next_id; lia).
  unfold zadd. destruct (zfind v am) as [j0|] eqn:Z.
  - apply zfind_some in Z. assert (Zk := in_fst _ _ _ Z). split.
    + constructor; exact Ib.
    + constructor; exact Ie.
    + intros i j. rewrite IL. split; intros (a & b & H1 & H2 & H3); exists a, b; repeat split; auto; [right; exact H2|].
      destruct H2 as [H2|H2]; [|exact H2]. injection H2 as <- <-. exfalso. apply Nv. apply (IE _ _ H1).
    + intros a b H. destruct (IE _ _ H) as [H1 H2]. split; [right; exact H1|exact H2].
    + intros a [<-|H]; [exact Zk|apply Idm, H].
    + intros a H. destruct (Iam a H) as [H1|H1]; [left; right; exact H1|right; exact H1].
    + intros i p. rewrite verts_add, Iv. cbn [In]. split.
      * intros [(w & Hp & Hw)|[-> ->]]; [exists w; tauto|exists v; auto].
      * intros (w & Hp & [[Hw|Hw]|Hw]); [injection Hw as <- <-; right; auto|left; exists w; auto|left; exists w; auto].
    + intros w i. cbn [In]. rewrite next_add. intros [[H|H]|H]; [injection H as <- <-; lia|specialize (Ibd w i (or_introl H)); lia|specialize (Ibd w i (or_intror H)); lia].
    + constructor; assumption.
    + exact Ina.
    + intros a b i. cbn [In]. intros [[H|H]|H] [[H'|H']|H'];
        try congruence; try (injection H as <- <-); try (injection H' as <- <-); try reflexivity;
        try (exfalso; eapply Nid; [|reflexivity]; eauto; fail); eapply Iinj; eauto.
    + intros a i j. cbn [In]. intros [H|H] Hj.
      * injection H as <- <-. split; [intros X; exfalso; eapply Nid; [right; exact Hj|symmetry; exact X]|].
        intros Hno. exfalso. destruct (Iam v Zk) as [H|[u Hu]]; [exact (Nv H)|]. apply Hno. exists u. split; [apply Hv, (IE _ _ Hu)|exact Hu].
      * apply Idup; assumption.
  - apply zfind_none in Z. split.
    + constructor; exact Ib.
    + constructor; exact Ie.
    + intros i j. rewrite IL. split; intros (a & b & H1 & H2 & H3); exists a, b; repeat split; auto; [right; exact H2|right; exact H3| |].
      * destruct H2 as [H2|H2]; [|exact H2]. injection H2 as <- <-. exfalso. apply Nv. apply (IE _ _ H1).
      * destruct H3 as [H3|H3]; [|exact H3]. injection H3 as <- <-. exfalso. apply Z. apply (IE _ _ H1).
    + intros a b H. destruct (IE _ _ H) as [H1 H2]. split; right; assumption.
    + intros a [<-|H]; [left; reflexivity|right; apply Idm, H].
    + intros a [<-|H]; [left; left; reflexivity|]. destruct (Iam a H) as [H1|H1]; [left; right; exact H1|right; exact H1].
    + intros i p. rewrite verts_add, Iv. cbn [In]. split.
      * intros [(w & Hp & Hw)|[-> ->]]; [exists w; tauto|exists v; auto].
      * intros (w & Hp & [[Hw|Hw]|[Hw|Hw]]); try (injection Hw as <- <-; right; auto; fail); left; exists w; auto.
    + intros w i. cbn [In]. rewrite next_add. intros [[H|H]|[H|H]]; try (injection H as <- <-; lia);
        [specialize (Ibd w i (or_introl H)); lia|specialize (Ibd w i (or_intror H)); lia].
    + constructor; assumption.
    + constructor; assumption.
    + intros a b i. cbn [In]. intros [[H|H]|[H|H]] [[H'|H']|[H'|H']];
        try congruence; try (injection H as <- <-); try (injection H' as <- <-); try reflexivity;
        try (exfalso; eapply Nid; [|reflexivity]; eauto; fail); eapply Iinj; eauto.
    + intros a i j. cbn [In]. intros [H|H] [Hj|Hj].
      * injection H as <- <-. injection Hj as <-. split; [intros _ (u & _ & Hu)|reflexivity]. apply Z. apply (IE _ _ Hu).
      * injection H as <- <-. exfalso. apply Z. eapply in_fst; exact Hj.
      * injection Hj as <- <-. exfalso. apply Nv. eapply in_fst; exact H.
      * apply Idup; assumption.
Qed.

Lemma add_edge_ok {P} (g : graph P) i j : 0 <= i < Z.of_nat (List.length (g_verts g)) -> 0 <= j < Z.of_nat (List.length (g_verts g)) ->
  exists g', add_edge g i j = Ok g'.
Proof.
  intros Hi Hj. unfold add_edge. rewrite (proj2 (has_vertex_spec g i)), (proj2 (has_vertex_spec g j)) by assumption. cbn. eexists. reflexivity.
Qed.

(** adding the edge to a vertex already known *)
Lemma inv_edge E g am dm L v w id1 id2 : inv E g am dm L -> In (v, id1) dm -> In (w, id2) am ->
  (forall u, In u (map fst dm) -> u <= v) ->
  exists g', add_edge g id1 id2 = Ok g' /\ next_id g' = next_id g /\ inv ((v, w) :: E) g' am dm ((id1, id2) :: L).
Proof.
  intros I Hv Hw Hm. destruct I as [Ib Ie IL IE Idm Iam Iv Ibd Ind Ina Iinj Idup].
  destruct (@add_edge_ok _ g id1 id2) as [g' E']; [apply (Ibd v); auto|apply (Ibd w); auto|].
  destruct (add_edge_inv _ _ _ E') as (V & _). exists g'. split; [exact E'|].
  assert (N : next_id g' = next_id g) by (unfold next_id; rewrite V; reflexivity). split; [exact N|]. split.
  - econstructor; eassumption.
  - econstructor; eassumption.
  - intros i j. cbn [In]. rewrite IL. split.
    + intros [H|(a & b & H1 & H2 & H3)]; [injection H as <- <-; exists v, w; auto|exists a, b; auto].
    + intros (a & b & [H|H] & H2 & H3); [|right; exists a, b; auto]. injection H as <- <-. left.
      rewrite (nodup_fun _ _ _ _ Ind H2 Hv), (nodup_fun _ _ _ _ Ina H3 Hw). reflexivity.
  - intros a b [H|H]; [injection H as <- <-; split; eapply in_fst; eassumption|apply IE, H].
  - exact Idm.
  - intros a H. destruct (Iam a H) as [H1|[u H1]]; [left; exact H1|right; exists u; right; exact H1].
  - intros i p. rewrite V. apply Iv.
  - intros a i. rewrite N. apply Ibd.
  - exact Ind.
  - exact Ina.
  - exact Iinj.
  - intros a i j Hi Hj. rewrite (Idup a i j Hi Hj). split; intros H (u & Hu & K); apply H; exists u; (split; [exact Hu|]); [|right; exact K].
    destruct K as [K|K]; [|exact K]. injection K as <- <-. exfalso. specialize (Hm w (in_fst _ _ _ Hi)). lia.
Qed.

Lemma inv_nb E g am dm L v w id1 : inv E g am dm L -> In (v, id1) dm -> (forall u, In u (map fst dm) -> u <= v) ->
  exists g' am' L', visit_nb vm id1 (Ok (g, am)) w = Ok (g', am') /\ inv ((v, w) :: E) g' am' dm L'.
Proof.
  intros I Hv Hm. unfold visit_nb. cbn [bind]. destruct (zfind w am) as [id2|] eqn:Z.
  - apply zfind_some in Z. destruct (@inv_edge _ _ _ _ _ v w id1 id2 I Hv Z Hm) as (g' & E' & _ & I'). rewrite E'. cbn [bind]. eauto.
  - assert (Z' := Z). apply zfind_none in Z'. unfold zadd. rewrite Z.
    destruct I as [Ib Ie IL IE Idm Iam Iv Ibd Ind Ina Iinj Idup].
    assert (Nid : forall x i, In (x, i) dm \/ In (x, i) am -> i <> next_id g) by (intros x i H; apply Ibd in H; lia).
    assert (Bn : 0 <= next_id g) by (unfold next_id; lia).
    assert (Ndm : ~ In w (map fst dm)) by (intros H; apply Z', Idm, H).
    destruct (@add_edge_ok _ (add_vertex g (pos w)) id1 (next_id g)) as [g' E'].
    { change (0 <= id1 < next_id (add_vertex g (pos w))). rewrite next_add. specialize (Ibd v id1 (or_introl Hv)). lia. }
    { change (0 <= next_id g < next_id (add_vertex g (pos w))). rewrite next_add. lia. }
    rewrite E'. cbn [bind]. exists g', ((w, next_id g) :: am), ((id1, next_id g) :: L). split; [reflexivity|].
    destruct (add_edge_inv _ _ _ E') as (V & _).
    assert (N : next_id g' = next_id g + 1) by (rewrite <- (next_add g (pos w)); unfold next_id; rewrite V; reflexivity).
    split.
    + econstructor; [|eassumption]. constructor. exact Ib.
    + econstructor; [|eassumption]. constructor. exact Ie.
    + intros i j. cbn [In]. rewrite IL. split.
      * intros [H|(a & b & H1 & H2 & H3)]; [injection H as <- <-; exists v, w; auto|exists a, b; auto].
      * intros (a & b & [H|H] & H2 & [H3|H3]).
        -- injection H as <- <-. injection H3 as <-. left. rewrite (nodup_fun _ _ _ _ Ind H2 Hv). reflexivity.
        -- injection H as <- <-. exfalso. apply Z'. eapply in_fst; exact H3.
        -- injection H3 as <- <-. exfalso. apply Z'. apply (IE _ _ H).
        -- right. exists a, b. auto.
    + intros a b [H|H]; [injection H as <- <-; split; [eapply in_fst; exact Hv|left; reflexivity]|].
      destruct (IE _ _ H) as [H1 H2]. split; [exact H1|right; exact H2].
    + intros a H. right. apply Idm, H.
    + intros a [<-|H]; [right; exists v; left; reflexivity|].
      destruct (Iam a H) as [H1|[u H1]]; [left; exact H1|right; exists u; right; exact H1].
    + intros i p. rewrite V, verts_add, Iv. cbn [In]. split.
      * intros [(x & Hp & Hx)|[-> ->]]; [exists x; tauto|exists w; auto].
      * intros (x & Hp & [Hx|[Hx|Hx]]); [left; exists x; auto|injection Hx as <- <-; right; auto|left; exists x; auto].
    + intros x i. cbn [In]. rewrite N. intros [H|[H|H]]; [specialize (Ibd x i (or_introl H)); lia|injection H as <- <-; lia|specialize (Ibd x i (or_intror H)); lia].
    + exact Ind.
    + constructor; assumption.
    + intros a b i. cbn [In]. intros [H|[H|H]] [H'|[H'|H']];
        try congruence; try (injection H as <- <-); try (injection H' as <- <-); try reflexivity;
        try (exfalso; eapply Nid; [|reflexivity]; eauto; fail); eapply Iinj; eauto.
    + intros a i j Hi. cbn [In]. intros [Hj|Hj].
      * injection Hj as <- <-. exfalso. apply Ndm. eapply in_fst; exact Hi.
      * rewrite (Idup a i j Hi Hj). split; intros H (u & Hu & K); apply H; exists u; (split; [exact Hu|]); [|right; exact K].
        destruct K as [K|K]; [|exact K]. injection K as <- <-. exfalso. apply Ndm. eapply in_fst; exact Hi.
Qed.

Lemma inv_nbs v id1 nb : forall E g am dm L, inv E g am dm L -> In (v, id1) dm -> (forall u, In u (map fst dm) -> u <= v) ->
  exists g' am' L' E', fold_left (visit_nb vm id1) nb (Ok (g, am)) = Ok (g', am') /\ inv E' g' am' dm L' /\
    (forall a b, In (a, b) E' <-> (a = v /\ In b nb) \/ In (a, b) E).
Proof.
  induction nb as [|w t IH]; intros E g am dm L I Hv Hm.
  - cbn [fold_left]. exists g, am, L, E. split; [reflexivity|]. split; [exact I|]. intros a b. cbn. tauto.
  - cbn [fold_left]. destruct (@inv_nb _ _ _ _ _ v w id1 I Hv Hm) as (g1 & am1 & L1 & E1 & I1). rewrite E1.
    destruct (IH _ _ _ _ _ I1 Hv Hm) as (g2 & am2 & L2 & E2 & R2 & I2 & H2). exists g2, am2, L2, E2. split; [exact R2|]. split; [exact I2|].
    intros a b. rewrite H2. cbn [In]. split.
    + intros [[-> H]|[H|H]]; [left; auto|injection H as <- <-; left; auto|right; exact H].
    + intros [[-> [<-|H]]|H]; [right; left; reflexivity|left; auto|right; right; exact H].
Qed.

Lemma inv_visits adj : forall E g am dm L, inv E g am dm L -> keys_sorted adj ->
  (forall u v, In u (map fst dm) -> In v (map fst adj) -> u < v) ->
  exists g' am' dm' L' E', fold_left (visit vm) adj (Ok (g, am)) = Ok (g', am') /\ inv E' g' am' dm' L' /\
    (forall a b, In (a, b) E' <-> adj_rel adj a b \/ In (a, b) E) /\ (forall a, In a (map fst dm') <-> In a (map fst adj) \/ In a (map fst dm)) /\
    List.length dm' = (List.length adj + List.length dm)%nat.
Proof.
  induction adj as [|[v nb] t IH]; intros E g am dm L I S Hlt.
  - cbn [fold_left]. exists g, am, dm, L, E. split; [reflexivity|]. split; [exact I|]. split; [|split; [cbn; tauto|reflexivity]].
    intros a b. split; [right; assumption|intros [(s & [] & _)|H]; exact H].
  - cbn [fold_left]. unfold keys_sorted in S. cbn [map fst] in S, Hlt. inversion S as [|? ? S1 S2]; subst.
    change (visit vm (Ok (g, am)) (v, nb)) with (fold_left (visit_nb vm (next_id g)) nb (Ok (add_vertex g (pos v), zadd v (next_id g) am))).
    assert (I1 := @inv_start E g am dm L v I (fun u Hu => Hlt u v Hu (or_introl eq_refl))).
    destruct (@inv_nbs v (next_id g) nb _ _ _ _ _ I1) as (g1 & am1 & L1 & E1 & R1 & I2 & H1).
    { left; reflexivity. }
    { intros u [<-|Hu]; [cbn; lia|]. specialize (Hlt u v Hu (or_introl eq_refl)). lia. }
    rewrite R1. destruct (IH E1 g1 am1 _ L1 I2 S1) as (g2 & am2 & dm2 & L2 & E2 & R2 & I3 & H2 & H3 & H4).
    { intros u x [<-|Hu] Hx; [cbn [fst]; rewrite Forall_forall in S2; apply S2, Hx|]. apply Hlt; [exact Hu|right; exact Hx]. }
    exists g2, am2, dm2, L2, E2. split; [exact R2|]. split; [exact I3|]. split; [|split].
    + intros a b. rewrite H2, H1. unfold adj_rel. cbn [In]. split.
      * intros [(s & Hs & Hb)|[[-> Hb]|H]]; [left; exists s; auto|left; exists nb; auto|right; exact H].
      * intros [(s & [Hs|Hs] & Hb)|H]; [injection Hs as <- <-; right; left; auto|left; exists s; auto|right; right; exact H].
    + intros a. rewrite H3. cbn [map fst In]. tauto.
    + rewrite H4. cbn [List.length]. lia.
Qed.
End Build.
