(** C74-C78, C81: the verification tools (file readers). *)
From Coq Require Import Reals Lra Lia Sorted Permutation SpecFloat.
From Verif Require Import Lib NumOrd NumReal NumFloat LibR SortInst Tools Spec_Geo Spec_Tools Spec_Preproc Spec_Client
  Pf_Geo Pf_GeoDist Pf_Tools Pf_ToolsG Pf_ToolsF Pf_ToolsH Ex.
Local Open Scope string_scope.
Local Open Scope list_scope.

(** a libm for the concrete examples in which the earth is flat: sin x = x,
    cos x = 1, pow x _ = x * x, atan2 y _ = y *)
Definition tr_flat : transc := mkTransc (fun _ => sf_ofZ 1) (fun _ => sf_ofZ 0) (fun x => x) (fun _ => sf_ofZ 1)
  (fun _ => sf_ofZ 0) (fun y _ => y) (fun x _ => SFmul prec emax x x).
Definition nflat : Num SF := num_float tr_flat.

(** ** C74 *)
Theorem C74_great_circle (p q : pt) :
  exists d, geo_dist (rx_geo p) (rx_geo q) = (Some d : RX) /\ great_circle p q d /\ forall d', great_circle p q d' -> d' = d.
Proof.
  exists (gdist p q). split; [apply geo_dist_real|]. split; [apply gdist_great|]. intros d' H. apply (great_unique H (gdist_great p q)).
Qed.
Print Assumptions C74_great_circle.
Theorem C74_metric (p q r : pt) (dpq dqp dqr dpr : R) :
  geo_dist (rx_geo p) (rx_geo q) = (Some dpq : RX) -> geo_dist (rx_geo q) (rx_geo p) = (Some dqp : RX) ->
  geo_dist (rx_geo q) (rx_geo r) = (Some dqr : RX) -> geo_dist (rx_geo p) (rx_geo r) = (Some dpr : RX) ->
  (0 <= dpq)%R /\ (dpq = 0%R <-> on_sphere p = on_sphere q) /\ dpq = dqp /\ (dpr <= dpq + dqr)%R.
Proof.
  rewrite !geo_dist_real. intros E1 E2 E3 E4. injection E1 as <-. injection E2 as <-. injection E3 as <-. injection E4 as <-.
  split; [apply gdist_nonneg|]. split; [apply gdist_zero|]. split; [apply gdist_sym|apply gdist_triangle].
Qed.
Print Assumptions C74_metric.
(** a quarter of the equator, and the two poles of one meridian *)
Example C74_example : geo_dist (rx_geo (0, 10)%R) (rx_geo (0, 100)%R) = (Some (earth * (PI / 2))%R : RX) /\
  geo_dist (rx_geo (90, 0)%R) (rx_geo (90, 77)%R) = (Some 0%R : RX).
Proof.
  assert (P := PI_RGT_0). rewrite !geo_dist_real. split; f_equal.
  - rewrite gdist_equator by (unfold radians; lra). unfold radians. field.
  - apply gdist_zero. unfold on_sphere. cbn [fst snd]. replace (radians 90) with (PI / 2)%R by (unfold radians; field).
    rewrite cos_PI2. f_equal. f_equal; ring.
Qed.

(** ** C75 *)
Lemma ids_seq {X : Type} (vm : list (Z * X)) : forall k, (forall i e, nth_error vm i = Some e -> fst e = Z.of_nat (S (k + i))) ->
  map fst vm = map (fun i => Z.of_nat (S i)) (seq k (List.length vm)).
Proof.
  induction vm as [|e t IH]; intros k H; [reflexivity|]. cbn [map List.length seq]. f_equal.
  - rewrite (H 0%nat e eq_refl). f_equal. lia.
  - apply IH. intros i x Hi. rewrite (H (S i) x Hi). f_equal. lia.
Qed.
Theorem C75_vertices {F : Type} {NF : Num F} (fuel : nat) (pts : list (Geo F)) (vm : list (Z * Geo F)) :
  extract fuel 0 pts = Ok vm ->
  map fst vm = map (fun i => Z.of_nat (S i)) (seq 0 (List.length vm)) /\
  (forall e, In e vm -> In (snd e) pts) /\
  StronglySorted (fun e e' => same_point (snd e') (snd e) = false) vm /\
  (forall p, In p pts -> exists e, In e vm /\ same_point p (snd e) = true).
Proof.
  intros E. destruct (extract_spec _ _ _ E) as (A & B & C & D). split; [|split; [intros e H; apply (B e H)|split; [exact C|exact D]]].
  apply ids_seq. intros i e Hi. rewrite (A i e Hi). lia.
Qed.
Print Assumptions C75_vertices.
(** reading ends as soon as every point is the same as itself *)
Theorem C75_terminates {F : Type} {NF : Num F} (fuel : nat) (pts : list (Geo F)) :
  (forall p, In p pts -> same_point p p = true) -> (List.length pts <= fuel)%nat -> exists vm, extract fuel 0 pts = Ok vm.
Proof. exact (@extract_total F NF fuel 0%Z pts). Qed.
Print Assumptions C75_terminates.
(** and a point that is the same as no point is never removed *)
Theorem C75_never_ends {F : Type} {NF : Num F} (fuel : nat) (ord : list (Z * Geo F) -> list (Z * Geo F)) (lines : list (list (Geo F))) (p : Geo F) :
  In p (List.concat lines) -> (forall q, In q (List.concat lines) -> same_point p q = false) ->
  parse_graph fuel ord lines = OutOfFuel.
Proof. intros H N. unfold parse_graph. rewrite (extract_hangs _ _ H N). reflexivity. Qed.
Print Assumptions C75_never_ends.
(** the point found for [p] is a vertex and the same point as [p], in whichever
    order the unordered map is iterated *)
Theorem C75_found {F : Type} {NF : Num F} (fuel : nat) (ord : list (Z * Geo F) -> list (Z * Geo F)) (pts : list (Geo F)) vm (p : Geo F) :
  any_order ord -> extract fuel 0 pts = Ok vm -> In p pts ->
  exists v q, find_vertex ord vm p = Ok v /\ In (v, q) vm /\ same_point p q = true.
Proof. intros O E H. destruct (extract_spec _ _ _ E) as (_ & _ & _ & D). apply find_vertex_ok; [exact O|apply D, H]. Qed.
Print Assumptions C75_found.
(** over the reals: vertices at least 0.1 m apart, every point less than 0.1 m
    from one *)
Theorem C75_real (pts : list pt) : exists vs : list pt,
  extract (List.length pts) 0 (map rx_geo pts) = Ok (map (fun e => (fst e, rx_geo (snd e))) (combine (map (fun i => Z.of_nat (S i)) (seq 0 (List.length vs))) vs)) /\
  incl vs pts /\
  StronglySorted (fun a b => forall d, great_circle a b d -> (1 / 10 <= d)%R) vs /\
  (forall p, In p pts -> exists v, In v vs /\ forall d, great_circle p v d -> (d < 1 / 10)%R).
Proof.
  destruct (@extract_total RX _ (List.length pts) 0%Z (map rx_geo pts)) as [vm E].
  { intros p H. apply in_map_iff in H. destruct H as (a & <- & _). apply same_refl_real. }
  { rewrite map_length. lia. }
  destruct (C75_vertices _ _ _ E) as (A & B & C & D).
  assert (X : exists vs, map snd vm = map rx_geo vs /\ incl vs pts).
  { clear - B. induction vm as [|e t IH]; [exists []; split; [reflexivity|intros x []]|]. destruct IH as (vs & H & I); [intros x Hx; apply B; right; exact Hx|].
    assert (He := B e (or_introl eq_refl)). apply in_map_iff in He. destruct He as (a & Ea & Ha). exists (a :: vs). split; [cbn; rewrite Ea, H; reflexivity|].
    intros x [<-|Hx]; [exact Ha|apply I, Hx]. }
  destruct X as (vs & Hvs & I). exists vs. assert (L : List.length vm = List.length vs) by (rewrite <- (map_length snd vm), Hvs, map_length; reflexivity).
  split; [|split; [exact I|split]].
  - rewrite E. f_equal. rewrite <- L, <- A. clear - Hvs. revert vs Hvs. induction vm as [|[k g] t IH]; intros [|v vs] H; try discriminate; [reflexivity|].
    cbn in H. injection H as -> H. cbn [map combine fst snd]. f_equal. apply IH, H.
  - clear - C Hvs. revert vs Hvs. induction C as [|e t C IH He]; intros [|v vs] H; try discriminate; constructor.
    + cbn in H. injection H as _ H. apply IH, H.
    + cbn in H. injection H as Hv H. apply Forall_forall. intros x Hx d Hd. rewrite Forall_forall in He.
      assert (Hin : In (rx_geo x) (map snd t)) by (rewrite H; apply in_map, Hx). apply in_map_iff in Hin. destruct Hin as (e' & Ee' & He').
      specialize (He e' He'). rewrite Ee', Hv, same_real in He. apply Rltb_false in He. rewrite (great_unique Hd (gdist_great v x)), gdist_sym. exact He.
  - intros p Hp. destruct (D (rx_geo p) (in_map _ _ _ Hp)) as (e & He & S). assert (Hin : In (snd e) (map rx_geo vs)) by (rewrite <- Hvs; apply in_map, He).
    apply in_map_iff in Hin. destruct Hin as (v & Ev & Hv). exists v. split; [exact Hv|]. intros d Hd. rewrite <- Ev, same_real in S. apply Rltb_true in S.
    rewrite (great_unique Hd (gdist_great p v)). exact S.
Qed.
Print Assumptions C75_real.
(** when no two points of the drawing are between 0.1 m and 0.2 m apart, the
    graph does not depend on the order of iteration *)
Theorem C75_order_irrelevant (fuel : nat) (ord ord' : list (Z * Geo RX) -> list (Z * Geo RX)) (lines : list (list pt)) :
  any_order ord -> any_order ord' ->
  (forall p q d, In p (List.concat lines) -> In q (List.concat lines) -> great_circle p q d -> (d < 2 / 10)%R -> (d < 1 / 10)%R) ->
  parse_graph fuel ord (map (map rx_geo) lines) = parse_graph fuel ord' (map (map rx_geo) lines).
Proof. intros O O' H. apply order_real; try assumption. intros p q Hp Hq. apply (H p q _ Hp Hq), gdist_great. Qed.
Print Assumptions C75_order_irrelevant.

Example C75_example_order : forall p q d, In p (List.concat [[(0, 0); (0, 90)]]%R) -> In q (List.concat [[(0, 0); (0, 90)]]%R) ->
  great_circle p q d -> (d < 2 / 10)%R -> (d < 1 / 10)%R.
Proof.
  intros p q d Hp Hq Hd L. assert (P := PI_RGT_0). assert (P3 := PI2_3_2). rewrite (great_unique Hd (gdist_great p q)) in *. clear Hd d.
  assert (D : gdist (0, 0)%R (0, 90)%R = (earth * (PI / 2))%R) by (rewrite gdist_equator by (unfold radians; lra); unfold radians; field).
  cbn in Hp, Hq. destruct Hp as [<-|[<-|[]]], Hq as [<-|[<-|[]]]; rewrite ?gdist_refl in *; try lra.
  - rewrite D in L. unfold earth in L. lra.
  - rewrite gdist_sym, D in L. unfold earth in L. lra.
Qed.
(** three points of the equator 8 cm from each other: the middle one is joined
    to either vertex *)
Definition ex_lon (i : R) : pt := (0, i * (180 / PI * (8 / 100) / earth))%R.
Lemma ex_lon_dist i j : (0 <= j - i <= 2)%R -> gdist (ex_lon i) (ex_lon j) = ((j - i) * (8 / 100))%R.
Proof.
  intros H. assert (P := PI_RGT_0). assert (P4 := PI_4). assert (P3 := PI2_3_2). unfold ex_lon.
  assert (E : (radians (j * (180 / PI * (8 / 100) / earth)) - radians (i * (180 / PI * (8 / 100) / earth)) = (j - i) * (8 / 100) / earth)%R).
  { unfold radians, earth. field. lra. }
  rewrite gdist_equator; rewrite E; unfold earth in *; [field|]. lra.
Qed.
Definition ex_chain : list (list (Geo RX)) := [[rx_geo (ex_lon 0); rx_geo (ex_lon 2)]; [rx_geo (ex_lon 1); rx_geo (ex_lon 2)]].
Lemma ex_chain_vm : extract 4 0 (List.concat ex_chain) = Ok [(1%Z, rx_geo (ex_lon 0)); (2%Z, rx_geo (ex_lon 2))].
Proof.
  assert (S : forall i j, (0 <= i <= 2)%R -> (0 <= j <= 2)%R -> same_point (rx_geo (ex_lon i)) (rx_geo (ex_lon j)) = Rltb (Rabs (i - j) * (8 / 100)) (1 / 10)).
  { intros i j Hi Hj. rewrite same_real. f_equal. destruct (Rle_or_lt i j).
    - rewrite ex_lon_dist by lra. rewrite Rabs_left1 by lra. ring.
    - rewrite gdist_sym, ex_lon_dist by lra. rewrite Rabs_pos_eq by lra. ring. }
  assert (T : forall a, (a * (8 / 100) < 1 / 10)%R -> Rltb (a * (8 / 100)) (1 / 10) = true) by (intros; apply Rltb_true; assumption).
  assert (N : forall a, (1 / 10 <= a * (8 / 100))%R -> Rltb (a * (8 / 100)) (1 / 10) = false) by (intros; apply Rltb_false; assumption).
  assert (A0 : forall x, Rabs (x - x) = 0%R) by (intros; rewrite Rminus_diag_eq by reflexivity; apply Rabs_R0).
  assert (A1 : Rabs (2 - 0) = 2%R) by (rewrite Rabs_pos_eq; lra). assert (A2 : Rabs (1 - 0) = 1%R) by (rewrite Rabs_pos_eq; lra).
  assert (St : forall n v p (t : list (Geo RX)), extract (Datatypes.S n) v (p :: t) = (rest <- extract n (v + 1) (remove_same p (p :: t)) ;; Ok ((v + 1, p) :: rest))%Z) by reflexivity.
  assert (R1 : remove_same (rx_geo (ex_lon 0)) (List.concat ex_chain) = [rx_geo (ex_lon 2); rx_geo (ex_lon 2)]).
  { unfold remove_same, ex_chain. cbn [List.concat app filter]. rewrite !S by lra. rewrite A0, A1, A2, (T 0%R), (N 2%R), (T 1%R) by lra. reflexivity. }
  assert (R2 : remove_same (rx_geo (ex_lon 2)) [rx_geo (ex_lon 2); rx_geo (ex_lon 2)] = []).
  { unfold remove_same. cbn [filter]. rewrite !S by lra. rewrite A0, (T 0%R) by lra. reflexivity. }
  change (List.concat ex_chain) with (rx_geo (ex_lon 0) :: tl (List.concat ex_chain)). rewrite St. change (rx_geo (ex_lon 0) :: tl (List.concat ex_chain)) with (List.concat ex_chain).
  rewrite R1, St, R2. reflexivity.
Qed.
Theorem C75_order_refuted : exists (lines : list (list (Geo RX))) ord ord', any_order ord /\ any_order ord' /\
  parse_graph 4 ord lines <> parse_graph 4 ord' lines.
Proof.
  exists ex_chain, (fun l => l), (@rev _). split; [intros l; reflexivity|]. split; [intros l; apply Permutation_rev|].
  unfold parse_graph. rewrite ex_chain_vm. cbn [bind].
  assert (S : forall i j, (0 <= j - i <= 2)%R -> same_point (rx_geo (ex_lon i)) (rx_geo (ex_lon j)) = Rltb ((j - i) * (8 / 100)) (1 / 10)).
  { intros i j H. rewrite same_real. f_equal. apply ex_lon_dist, H. }
  assert (S' : forall i j, (0 <= i - j <= 2)%R -> same_point (rx_geo (ex_lon i)) (rx_geo (ex_lon j)) = Rltb ((i - j) * (8 / 100)) (1 / 10)).
  { intros i j H. rewrite same_real, gdist_sym. f_equal. apply ex_lon_dist, H. }
  assert (F00 : same_point (rx_geo (ex_lon 0)) (rx_geo (ex_lon 0)) = true) by apply same_refl_real.
  assert (F22 : same_point (rx_geo (ex_lon 2)) (rx_geo (ex_lon 2)) = true) by apply same_refl_real.
  assert (F02 : same_point (rx_geo (ex_lon 0)) (rx_geo (ex_lon 2)) = false) by (rewrite S by lra; apply Rltb_false; lra).
  assert (F20 : same_point (rx_geo (ex_lon 2)) (rx_geo (ex_lon 0)) = false) by (rewrite S' by lra; apply Rltb_false; lra).
  assert (F10 : same_point (rx_geo (ex_lon 1)) (rx_geo (ex_lon 0)) = true) by (rewrite S' by lra; apply Rltb_true; lra).
  assert (F12 : same_point (rx_geo (ex_lon 1)) (rx_geo (ex_lon 2)) = true) by (rewrite S by lra; apply Rltb_true; lra).
  unfold adj_of, ex_chain, find_vertex. cbn [fold_left bind rev app find snd fst]. rewrite F00, F02, F20, F22, F10, F12. cbn -[rx_geo]. discriminate.
Qed.
Print Assumptions C75_order_refuted.
(** a coordinate of 1e308 in doubles: the distance of the point to itself is not
    a number, and the file is never read to the end *)
Theorem C75_overflow_hang_refuted (t : transc) (fuel : nat) (ord : list (Z * Geo SF) -> list (Z * Geo SF)) :
  tr_sin t S754_nan = S754_nan -> (forall x, tr_pow t S754_nan x = S754_nan) -> (forall x, tr_atan2 t S754_nan x = S754_nan) ->
  let p := mkGeo (sf_ofZ (10 ^ 308)) (sf_ofZ 0) in
  fisfinite (Num := num_float t) (lat p) = true /\ parse_graph (NF := num_float t) fuel ord [[p; p]] = OutOfFuel.
Proof.
  intros Hs Hp Ha p. split; [vm_compute; reflexivity|]. apply C75_never_ends with (p := p); [left; reflexivity|].
  assert (N : @same_point SF (num_float t) p p = false).
  { unfold same_point, geo_dist. cbn -[sf_ofZ SFmul SFsub SFdiv SFadd SFsqrt SFltb binary_normalize p lat lon].
    assert (E : SFsub prec emax (SFdiv prec emax (SFmul prec emax (binary_normalize prec emax 884279719003555 (-48) false) (lat p)) (sf_ofZ 180))
                  (SFdiv prec emax (SFmul prec emax (binary_normalize prec emax 884279719003555 (-48) false) (lat p)) (sf_ofZ 180)) = S754_nan) by (vm_compute; reflexivity).
    rewrite E. change (SFdiv prec emax S754_nan (sf_ofZ 2)) with S754_nan. rewrite Hs, Hp. cbn [SFadd]. cbn [SFsqrt]. rewrite Ha. vm_compute. reflexivity. }
  intros q [<-|[<-|[]]]; exact N.
Qed.
Print Assumptions C75_overflow_hang_refuted.
Section ExFlat.
#[local] Existing Instance nflat.
Definition ex_geo (a b : Z) : Geo SF := mkGeo (fofZ a) (fofZ b).
(** two lines with a common end point: three vertices *)
Example C75_example : map fst (match extract 4 0 [ex_geo 0 0; ex_geo 0 1; ex_geo 0 1; ex_geo 1 1] with Ok vm => vm | _ => [] end) = [1; 2; 3]%Z /\
  (forall p, In p [ex_geo 0 0; ex_geo 0 1; ex_geo 0 1; ex_geo 1 1] -> same_point p p = true).
Proof. split; [vm_compute; reflexivity|]. intros p H. cbn in H. intuition subst; vm_compute; reflexivity. Qed.
End ExFlat.
Example C75_example_real : exists vs, extract 2 0 (map rx_geo [(0, 0); (0, 90)]%R) = Ok vs /\ List.length vs = 2%nat.
Proof.
  destruct (C75_real [(0, 0); (0, 90)]%R) as (vs & E & I & _ & N). eexists. split; [exact E|].
  assert (P := PI_RGT_0). assert (P3 := PI2_3_2).
  assert (D : gdist (0, 0)%R (0, 90)%R = (earth * (PI / 2))%R) by (rewrite gdist_equator by (unfold radians; lra); unfold radians; field).
  assert (In (0, 0)%R vs /\ In (0, 90)%R vs) as [H0 H1].
  { split.
    - destruct (N (0, 0)%R (or_introl eq_refl)) as (v & Hv & Hd). destruct (I v Hv) as [<-|[<-|[]]]; [exact Hv|]. specialize (Hd _ (gdist_great _ _)). rewrite D in Hd. unfold earth in Hd. lra.
    - destruct (N (0, 90)%R (or_intror (or_introl eq_refl))) as (v & Hv & Hd). destruct (I v Hv) as [<-|[<-|[]]]; [|exact Hv]. specialize (Hd _ (gdist_great _ _)). rewrite gdist_sym, D in Hd. unfold earth in Hd. lra. }
  destruct (@C75_terminates RX _ 2 (map rx_geo [(0, 0); (0, 90)]%R)) as [vm Ev]; [intros p H; apply in_map_iff in H; destruct H as (a & <- & _); apply same_refl_real|cbn; lia|].
  rewrite map_length, combine_length, map_length, seq_length, Nat.min_id.
  assert (L : forall (l : list (Geo RX)) fuel v r, extract fuel v l = Ok r -> (List.length r <= List.length l)%nat).
  { intros l fuel. revert l. induction fuel as [|f IH]; intros l v r R; (destruct l as [|x l]; cbn [extract] in R; [injection R as <-; cbn; lia|]); [discriminate|].
    destruct (extract f (v + 1) (remove_same x (x :: l))) as [r'| | |] eqn:E'; cbn [bind] in R; try discriminate. injection R as <-.
    assert (S : same_point x x = true). { destruct (same_point x x) eqn:S; [reflexivity|]. assert (Z := @extract_stuck RX _ (Datatypes.S f) v x l S). cbn [extract] in Z. rewrite E' in Z. discriminate. }
    apply IH in E'. unfold remove_same in E'. cbn [filter] in E'. rewrite S in E'. cbn [negb] in E'. assert (Q := filter_length_le (fun q => negb (same_point q x)) l). cbn [List.length]. lia. }
  assert (U := L _ _ _ _ E). rewrite !map_length, combine_length, map_length, seq_length, Nat.min_id in U. cbn [List.length] in U.
  destruct vs as [|a [|b vs]]; [destruct H0| |cbn in U |- *; lia]. destruct H0 as [H0|[]], H1 as [H1|[]]. rewrite H0 in H1. injection H1. lra.
Qed.

(** ** C76 *)
(** with [snap p] the vertex found for [p], the edges are exactly the lines
    drawn, and the components of the graph are those of the drawing *)
Theorem C76_graph {F : Type} {NF : Num F} (fuel : nat) (ord : list (Z * Geo F) -> list (Z * Geo F)) (lines : list (list (Geo F))) :
  any_order ord -> two_points lines -> (forall p, In p (List.concat lines) -> same_point p p = true) ->
  (List.length (List.concat lines) <= fuel)%nat ->
  exists (snap : Geo F -> Geo F) (g : graph (Geo F)), parse_graph fuel ord lines = Ok g /\ graph_built g /\
    (forall p, In p (List.concat lines) -> In (snap p) (List.concat lines) /\ same_point p (snap p) = true) /\
    (forall a b, seg g a b <-> drawn lines snap a b) /\
    (forall i a, In (i, a) (g_verts g) -> exists b, drawn lines snap a b) /\
    (forall i a j b, In (i, a) (g_verts g) -> In (j, b) (g_verts g) ->
       (connected (linked g) i j <-> connected (drawn lines snap) a b)).
Proof.
  intros O T S L. destruct (@extract_total F NF fuel 0%Z (List.concat lines) S L) as [vm X]. exists (snap ord vm).
  destruct (@graph_main F NF fuel ord lines vm O T X) as (g & R & B & E & V & C & _). exists g.
  split; [exact R|]. split; [exact B|]. split; [|split; [exact E|split; [exact V|exact C]]].
  intros p Hp. destruct (@C75_found F NF fuel ord (List.concat lines) vm p O X Hp) as (v & q & Ev & Hq & Sq). unfold snap. rewrite Ev.
  rewrite (@vm_get_in F NF vm v q); [|intros q' H'; exact (extract_ids _ _ _ X v q q' Hq H')|exact Hq]. split; [|exact Sq].
  destruct (extract_spec _ _ _ X) as (_ & Bs & _). apply (Bs (v, q) Hq).
Qed.
Print Assumptions C76_graph.
(** the number of copies of each vertex: one when no line joins it to a vertex
    numbered before it, two otherwise *)
Theorem C76_copies {F : Type} {NF : Num F} (fuel : nat) (ord : list (Z * Geo F) -> list (Z * Geo F)) (lines : list (list (Geo F))) vm :
  any_order ord -> two_points lines -> extract fuel 0 (List.concat lines) = Ok vm ->
  exists g, parse_graph fuel ord lines = Ok g /\
    forall a, (exists b, drawn lines (snap ord vm) a b) ->
      exists i j, (forall k, In (k, a) (g_verts g) <-> k = i \/ k = j) /\
        (i = j <-> ~ exists b, drawn lines (snap ord vm) a b /\ earlier vm b a).
Proof. exact (@graph_copies F NF fuel ord lines vm). Qed.
Print Assumptions C76_copies.
(** so places are repeated as soon as one line joins two different vertices *)
Theorem C76_repeated {F : Type} {NF : Num F} (fuel : nat) (ord : list (Z * Geo F) -> list (Z * Geo F)) (lines : list (list (Geo F))) vm :
  any_order ord -> two_points lines -> extract fuel 0 (List.concat lines) = Ok vm ->
  exists g, parse_graph fuel ord lines = Ok g /\
    ((exists i j a, i <> j /\ In (i, a) (g_verts g) /\ In (j, a) (g_verts g)) <-> exists a b, a <> b /\ drawn lines (snap ord vm) a b).
Proof.
  intros O T X. destruct (@graph_main F NF fuel ord lines vm O T X) as (g & R & _ & _ & _ & _ & D). exists g. auto.
Qed.
Print Assumptions C76_repeated.
Theorem C76_short_line {F : Type} {NF : Num F} (fuel : nat) (ord : list (Z * Geo F) -> list (Z * Geo F)) (lines : list (list (Geo F))) vm :
  any_order ord -> extract fuel 0 (List.concat lines) = Ok vm -> (exists l, In l lines /\ (List.length l < 2)%nat) ->
  parse_graph fuel ord lines = UB.
Proof. exact (@short_line F NF fuel ord lines vm). Qed.
Print Assumptions C76_short_line.
Section ExGraph.
#[local] Existing Instance nflat.
(** one line between two points: three vertices, two edges *)
Theorem C76_one_vertex_per_point_refuted : exists (a b : Geo SF) g, same_point a b = false /\
  parse_graph 2 (fun l => l) [[a; b]] = Ok g /\ g_verts g = [(0%Z, a); (1%Z, b); (2%Z, b)] /\ g_edges g = [(0%Z, 1%Z); (0%Z, 2%Z)].
Proof. exists (ex_geo 0 0), (ex_geo 0 1). eexists. split; [vm_compute; reflexivity|]. split; [vm_compute; reflexivity|]. split; vm_compute; reflexivity. Qed.
Print Assumptions C76_one_vertex_per_point_refuted.
(** the third point of a line is not in the graph *)
Theorem C76_third_point_refuted : exists (a b c : Geo SF) g,
  parse_graph 3 (fun l => l) [[a; b; c]] = Ok g /\ ~ In c (map snd (g_verts g)).
Proof.
  exists (ex_geo 0 0), (ex_geo 0 1), (ex_geo 1 1). eexists. split; [vm_compute; reflexivity|]. vm_compute. intuition discriminate.
Qed.
Print Assumptions C76_third_point_refuted.
(** a triangle and a separate line *)
Example C76_example : let lines := [[ex_geo 0 0; ex_geo 0 1]; [ex_geo 0 1; ex_geo 1 1]; [ex_geo 1 1; ex_geo 0 0]; [ex_geo 5 5; ex_geo 6 6]] in
  two_points lines /\ (forall p, In p (List.concat lines) -> same_point p p = true) /\
  (exists g, parse_graph 8 (@rev _) lines = Ok g /\ List.length (g_verts g) = 8%nat /\ List.length (g_edges g) = 8%nat).
Proof.
  split; [intros l H; cbn in H; intuition subst; cbn; lia|]. split; [intros p H; cbn in H; intuition subst; vm_compute; reflexivity|].
  eexists. split; [vm_compute; reflexivity|]. split; vm_compute; reflexivity.
Qed.
Example C76_example_short : (exists l, In l [[ex_geo 0 0; ex_geo 0 1]; [ex_geo 0 1]] /\ (List.length l < 2)%nat) /\
  exists vm, extract 3 0 (List.concat [[ex_geo 0 0; ex_geo 0 1]; [ex_geo 0 1]]) = Ok vm.
Proof. split; [exists [ex_geo 0 1]; split; [right; left; reflexivity|cbn; lia]|]. eexists. vm_compute. reflexivity. Qed.
End ExGraph.

(** ** C77 *)
Theorem C77_entries {F : Type} {NF : Num F} (es : list jentry) (fp : list (string * sigstat F)) : fingerprints es = Ok fp ->
  StronglySorted (fun a b => String.ltb a b = true) (map fst fp) /\
  (forall b, In b (map fst fp) <-> exists e, In e es /\ je_bssid e = b) /\
  (forall b st, alookup b fp = Some st <->
     exists e, first_with (fun e => je_bssid e = b) es e /\ signal_stat (je_type e) (je_vals e) = Ok st).
Proof. exact (@fingerprints_spec F NF es fp). Qed.
Print Assumptions C77_entries.
(** undefined exactly when a product of a counted pair does not fit an int *)
Theorem C77_undefined_iff {F : Type} {NF : Num F} (ty : txtype) (vals : list (Z * Z)) :
  ((forall e, counted vals e -> no_overflow e) <-> exists st : sigstat F, signal_stat ty vals = Ok st) /\
  ((exists e, counted vals e /\ ~ no_overflow e) <-> signal_stat ty vals = (UB : res (sigstat F))).
Proof.
  destruct (stat_total (F := F) ty vals) as [[H [st E]]|[(e & He & N) E]]; rewrite E; split; split; intros X; try discriminate; eauto.
  - destruct X as (e & He & N). exfalso. apply N, H, He.
  - exfalso. apply N, X, He.
  - destruct X as [st X]. discriminate.
Qed.
Print Assumptions C77_undefined_iff.
(** [d] lists the counted pairs; the mean is the weighted mean of the negated
    rssi and lies between the smallest and the largest *)
Theorem C77_mean (ty : txtype) (vals d : list (Z * Z)) :
  NoDup d -> (forall e, In e d <-> counted vals e) -> (forall e, In e d -> no_overflow e) -> (0 < zsum snd d < 2 ^ 64)%Z ->
  exists m, signal_stat ty vals = Ok (mkSS ty (Some m : RX) (Some 0%R : RX) (zsum snd d)) /\
    (m * IZR (zsum snd d))%R = IZR (zsum (fun e => - fst e * snd e)%Z d) /\
    (forall lo hi, (forall e, In e d -> (0 <= snd e)%Z /\ ((0 < snd e)%Z -> (lo <= IZR (- fst e) <= hi)%R)) -> (lo <= m <= hi)%R).
Proof. intros ND Hd Ov [P Q]. exact (@stat_mean ty vals d ND Hd Ov (conj (Z.lt_le_incl _ _ P) Q) P). Qed.
Print Assumptions C77_mean.
(** without any measurement the mean is undefined *)
Theorem C77_no_measurement (ty : txtype) (vals d : list (Z * Z)) :
  NoDup d -> (forall e, In e d <-> counted vals e) -> (forall e, In e d -> no_overflow e) -> zsum snd d = 0%Z ->
  signal_stat ty vals = Ok (mkSS ty (None : RX) (Some 0%R : RX) 0).
Proof. intros ND Hd Ov Z. apply (@stat_zero ty vals d ND Hd Ov); [lia|exact Z]. Qed.
Print Assumptions C77_no_measurement.
(** the variance is always zero, here for 50 and 60 seen once each: the
    mean square deviation from the mean -55 is 25 *)
Theorem C77_variance_refuted : (forall {F : Type} {NF : Num F} ty vals (st : sigstat F), signal_stat ty vals = Ok st -> ss_var st = f0) /\
  exists m, signal_stat TWIFI [(50, 1); (60, 1)]%Z = Ok (mkSS TWIFI (Some m : RX) (Some 0%R : RX) 2) /\
    (((-50 - m) * (-50 - m) + (-60 - m) * (-60 - m)) / 2 = 25)%R.
Proof.
  split.
  - intros F NF ty vals st H. unfold signal_stat in H. destruct (forallb _ _); [|discriminate]. injection H as <-. reflexivity.
  - destruct (@C77_mean TWIFI [(50, 1); (60, 1)]%Z [(50, 1); (60, 1)]%Z) as (m & E & M & _).
    + repeat constructor; cbn; intuition discriminate.
    + intros e. split.
      * intros [<-|[<-|[]]]; [exists [], [(60, 1)%Z]; split; [reflexivity|split; [reflexivity|constructor]]|].
        exists [(50, 1)%Z], []. split; [reflexivity|split; [reflexivity|constructor; [cbn; lia|constructor]]].
      * intros (pre & post & Eq & _). rewrite Eq. apply in_or_app. right; left; reflexivity.
    + intros e [<-|[<-|[]]]; unfold no_overflow, in_int; lia.
    + cbn. lia.
    + exists m. split; [exact E|]. cbn in M. assert (m = -55)%R by lra. subst m. lra.
Qed.
Print Assumptions C77_variance_refuted.
(** 85 dBm counted 300000 times: the sum of squares, which is not used, overflows *)
Theorem C77_overflow_refuted {F : Type} {NF : Num F} : exists vals, (forall r c, In (r, c) vals -> (0 < r <= 100 /\ 0 < c <= 300000)%Z) /\
  signal_stat TWIFI vals = (UB : res (sigstat F)).
Proof. exists [(85, 300000)]%Z. split; [intros r c [E|[]]; injection E as <- <-; lia|reflexivity]. Qed.
Print Assumptions C77_overflow_refuted.
(** a repeated rssi is not added up *)
Theorem C77_repeated_refuted : exists vals m, signal_stat TWIFI vals = Ok (mkSS TWIFI (Some m : RX) (Some 0%R : RX) 2) /\
  zsum snd vals = 11%Z /\ zsum (fun e => - fst e * snd e)%Z vals = (-560)%Z /\ m = (-55)%R.
Proof.
  exists [(50, 1); (50, 9); (60, 1)]%Z. destruct C77_variance_refuted as [_ (m & E & M)]. exists m. split; [exact E|]. split; [reflexivity|]. split; [reflexivity|].
  assert ((m + 55) * (m + 55) = 0)%R by lra. assert (m + 55 = 0)%R by (apply Rsqr_0_uniq; exact H). lra.
Qed.
Print Assumptions C77_repeated_refuted.
Example C77_example_none : NoDup [(50, 0)]%Z /\ (forall e, In e [(50, 0)]%Z <-> counted [(50, 0); (50, 7)]%Z e) /\
  (forall e, In e [(50, 0)]%Z -> no_overflow e) /\ zsum snd [(50, 0)]%Z = 0%Z.
Proof.
  split; [repeat constructor; cbn; tauto|]. split; [|split; [intros e [<-|[]]; unfold no_overflow, in_int; lia|reflexivity]].
  intros e. split.
  - intros [<-|[]]. exists [], [(50, 7)%Z]. split; [reflexivity|]. split; [reflexivity|constructor].
  - intros (pre & post & E & Q & N). destruct pre as [|a [|b pre]]; cbn [app] in E.
    + injection E as <- _. left; reflexivity.
    + injection E as <- <- _. exfalso. inversion N as [|? ? X _]; subst. apply X. reflexivity.
    + injection E as _ _ E. destruct pre; discriminate.
Qed.
Section ExFp.
#[local] Existing Instance nf.
Example C77_example : exists st, fingerprints [mkEntry "b" TWIFI [(50, 2); (60, 2)]; mkEntry "a" TBEACON [(70, 4)]; mkEntry "b" TWIFI [(99, 1)]]%Z = Ok st /\
  map fst st = ["a"; "b"] /\ map (fun e => ss_mean (snd e)) st = [fofZ (-70); fofZ (-55)] /\ map (fun e => ss_n (snd e)) st = [4; 4]%Z.
Proof. eexists. split; [vm_compute; reflexivity|]. split; [reflexivity|]. split; vm_compute; reflexivity. Qed.
End ExFp.

(** ** C78 *)
Theorem C78_levels {F : Type} {NF : Num F} {A : Type} (geom : A -> box F * (F -> F -> bool)) (fuel : nat)
    (ord : list (Z * Geo F) -> list (Z * Geo F)) (fs : list (jfeature F A)) (gs : list (geolevel F)) :
  parse_geojson geom fuel ord fs = Ok gs ->
  StronglySorted (fun a b => String.ltb a b = true) (map (@gl_id F) gs) /\
  (forall lv, In lv (map (@gl_id F) gs) <-> exists a, In (JLevel lv a) fs) /\
  (forall g, In g gs -> gl_alt g = fofZ 100 /\
     (exists a, first_with (is_level (gl_id g)) fs (JLevel (gl_id g) a) /\ gl_box g = fst (geom a) /\ gl_allowed g = snd (geom a)) /\
     Forall2 reads_tx (filter (is_tx (gl_id g)) fs) (gl_txs g) /\
     Forall2 reads_rp (filter (is_rp (gl_id g)) fs) (gl_rps g) /\
     ((exists lines, first_with (is_graph (gl_id g)) fs (JGraph (gl_id g) lines) /\ parse_graph fuel ord lines = Ok (gl_graph g)) \/
      (Forall (fun f => ~ is_graph (gl_id g) f) fs /\ gl_graph g = graph0))).
Proof. exact (@geojson_exact F NF A fuel ord geom fs gs). Qed.
Print Assumptions C78_levels.
(** a readable file is read, and the collector takes all its levels *)
Theorem C78_collector_accepts {F : Type} {NF : Num F} {A : Type} (geom : A -> box F * (F -> F -> bool)) (fuel : nat)
    (ord : list (Z * Geo F) -> list (Z * Geo F)) (fs : list (jfeature F A)) :
  any_order ord -> Forall (readable fuel) fs ->
  exists gs c, parse_geojson geom fuel ord fs = Ok gs /\ NoDup (map (@gl_id F) gs) /\ add_geo_levels col0 gs = Ok c.
Proof.
  intros O H. destruct (geojson_total geom O H) as [gs E]. destruct (@geojson_collected F NF A geom fuel ord fs gs O H E) as [[c C] N].
  exists gs, c. auto.
Qed.
Print Assumptions C78_collector_accepts.
(** a transmitter of a level without a level feature is lost *)
Theorem C78_unlisted_level_refuted {F : Type} {NF : Num F} {A : Type} (geom : A -> box F * (F -> F -> bool)) fuel ord (a : A) (x y : F) :
  exists gs, parse_geojson geom fuel ord [JLevel "1" a; JTx "2" "tx" TBEACON x y None None None] = Ok gs /\
    parse_geojson geom fuel ord [JLevel "1" a] = Ok gs.
Proof. eexists. split; reflexivity. Qed.
Print Assumptions C78_unlisted_level_refuted.
Section ExJson.
#[local] Existing Instance nflat.
Definition ex_fs : list (jfeature SF (box SF)) := [
  JTx "2" "t" TBEACON (fofZ 30) (fofZ 60) None (Some (fofZ (-75))) None;
  JLevel "2" (mkBox (mkXY (fofZ 0) (fofZ 0)) (mkXY (fofZ 50) (fofZ 50)));
  JLevel "1" (mkBox (mkXY (fofZ 0) (fofZ 0)) (mkXY (fofZ 40) (fofZ 40)));
  JGraph "2" [[ex_geo 0 0; ex_geo 0 1]];
  JRp "2" "r" (fofZ 31) (fofZ 61) [mkEntry "t" TBEACON [(60, 3)]%Z]; JOther].
Example C78_example : Forall (readable 2) ex_fs /\
  exists gs, parse_geojson (fun b => (b, fun _ _ => true)) 2 (fun l => l) ex_fs = Ok gs /\ map (@gl_id SF) gs = ["1"; "2"] /\
    map (fun g => map (@gt_lat SF) (gl_txs g)) gs = [[]; [fofZ 60]] /\ map (fun g => List.length (gl_rps g)) gs = [0; 1]%nat /\
    map (fun g => List.length (g_verts (gl_graph g))) gs = [0; 3]%nat.
Proof.
  split.
  - unfold ex_fs. repeat (apply Forall_cons || apply Forall_nil); cbn [readable]; auto.
    + split; [intros l [<-|[]]; cbn; lia|]. split; [|cbn; lia]. intros p H. cbn in H. intuition subst; vm_compute; reflexivity.
    + intros e x [<-|[]] (pre & post & E & _). cbn [je_vals] in E. destruct pre as [|p [|? ?]]; try discriminate E. injection E as <- _. unfold no_overflow, in_int. lia.
  - eexists. split; [vm_compute; reflexivity|]. split; [reflexivity|]. split; [vm_compute; reflexivity|]. split; vm_compute; reflexivity.
Qed.
End ExJson.

(** ** C81 *)
(** the wanted meaning of the message types *)
Definition sensor_code (t : stype) : Z :=
  match t with ACCELEROMETER => 101 | GYROSCOPE => 102 | MAGNETOMETER => 103 | BAROMETER => 104 | ORIENTATION => 105 | LOCATION => 106 end%Z.
Definition radio_code (t : rtype) : Z :=
  match t with WIFI => 201 | BLUETOOTH => 202 | BEACON => 203 | EDDYSTONE => 204 | WIFI_RTT => 205 end%Z.
Theorem C81_sensor {F : Type} {NF : Num F} (t : stype) (ts : Z) (vs : list F) b r d s1 s2 :
  decode (mkMsg (Some ts) (Some (sensor_code t)) (Some vs) b r d s1 s2) =
  Ok (mkSt (MSensor (mkSensor t (match vs with [x; y; z] => mkV x y z | _ => mkV f0 f0 f0 end))) ts).
Proof. destruct t; reflexivity. Qed.
Print Assumptions C81_sensor.
Theorem C81_radio {F : Type} {NF : Num F} (t : rtype) (ts : Z) vs id (r d : option F) s1 s2 : t <> EDDYSTONE ->
  decode (mkMsg (Some ts) (Some (radio_code t)) vs (Some id) r d s1 s2) =
  Ok (mkSt (MRadio (mkRadio t id (opt_or r f0) f0 (opt_or d f0) f0)) ts).
Proof. intros N. destruct t; try reflexivity. congruence. Qed.
Print Assumptions C81_radio.
(** an Eddystone message is read as Wi-Fi, and none is read as Eddystone *)
Theorem C81_eddystone_refuted {F : Type} {NF : Num F} :
  (forall ts vs id (r d : option F) s1 s2, decode (mkMsg (Some ts) (Some (radio_code EDDYSTONE)) vs (Some id) r d s1 s2) =
     Ok (mkSt (MRadio (mkRadio WIFI id (opt_or r f0) f0 (opt_or d f0) f0)) ts)) /\
  (forall (j : jmsg F) m r, decode j = Ok m -> st_data m = MRadio r -> r_type r <> EDDYSTONE) /\
  (forall s : settings F, s_signals s = SBLE -> enabled_signal s EDDYSTONE /\ ~ enabled_signal s WIFI).
Proof.
  split; [reflexivity|]. split; [exact (@decode_eddystone F NF)|]. intros s E. unfold enabled_signal. rewrite E. split; [discriminate|]. intros H. apply H. reflexivity.
Qed.
Print Assumptions C81_eddystone_refuted.
(** reading throws exactly when a field the type needs is missing *)
Theorem C81_throws_iff {F : Type} {NF : Num F} (j : jmsg F) :
  (decode j = Throw <-> jg_ts j = None \/ jg_type j = None \/
     exists t, jg_type j = Some t /\
       (((101 <= t <= 106)%Z /\ jg_values j = None) \/ ((201 <= t <= 205)%Z /\ jg_bssid j = None) \/
        (t = 300%Z /\ (jg_sent j = None \/ jg_sats j = None)))) /\
  (decode j <> Throw -> exists m, decode j = Ok m).
Proof.
  destruct j as [[ts|] [t|] vs b r d s1 s2]; unfold decode; cbn [jg_ts jg_type jg_values jg_bssid jg_rssi jg_dist jg_sent jg_sats at_or_throw bind];
    try (split; [split; [auto|reflexivity]|intros N; destruct (N eq_refl)]).
  destruct (((101 <=? t) && (t <=? 106))%Z) eqn:E1; [|destruct (((201 <=? t) && (t <=? 205))%Z) eqn:E2; [|destruct (t =? 300)%Z eqn:E3]].
  - assert (101 <= t <= 106)%Z by lia. destruct vs as [vs|]; cbn [at_or_throw bind].
    + split; [split; [discriminate|]|eauto]. intros [X|[X|(t' & Et & [[_ X]|[[X _]|[X _]]])]]; try discriminate; injection Et as <-; lia.
    + split; [split; [intros _; right; right; exists t; auto|reflexivity]|intros N; destruct (N eq_refl)].
  - assert (201 <= t <= 205)%Z by lia. destruct b as [b|]; cbn [at_or_throw bind].
    + split; [split; [discriminate|]|eauto]. intros [X|[X|(t' & Et & [[X _]|[[_ X]|[X _]]])]]; try discriminate; injection Et as <-; lia.
    + split; [split; [intros _; right; right; exists t; auto|reflexivity]|intros N; destruct (N eq_refl)].
  - assert (t = 300)%Z by lia. destruct s1 as [s1|]; [destruct s2 as [s2|]|]; cbn [at_or_throw bind].
    + split; [split; [discriminate|]|eauto]. intros [X|[X|(t' & Et & [[X _]|[[X _]|[_ [X|X]]]])]]; try discriminate; injection Et as <-; lia.
    + split; [split; [intros _; right; right; exists t; auto 6|reflexivity]|intros N; destruct (N eq_refl)].
    + split; [split; [intros _; right; right; exists t; auto 6|reflexivity]|intros N; destruct (N eq_refl)].
  - split; [split; [discriminate|]|eauto]. intros [X|[X|(t' & Et & [[X _]|[[X _]|[X _]]])]]; try discriminate; injection Et as <-; lia.
Qed.
Print Assumptions C81_throws_iff.
(** any other type becomes a measurement that no client uses *)
Theorem C81_unknown_type {F : Type} {NF : Num F} {NO : NumOrd F} (ts t : Z) vs b (r d : option F) s1 s2 :
  (forall x, t <> sensor_code x) -> (forall x, t <> radio_code x) -> t <> 300%Z ->
  exists m, decode (mkMsg (Some ts) (Some t) vs b r d s1 s2) = Ok m /\ st_ts m = ts /\ forall s c, rejected s c m.
Proof.
  intros Hs Hr Hn. exists (mkSt (MRadio (mkRadio WIFI "" f0 f0 f0 f0)) ts). split; [|split; [reflexivity|intros s c; apply unknown_rejected]].
  unfold decode. cbn [jg_ts jg_type at_or_throw bind].
  assert (((101 <=? t) && (t <=? 106))%Z = false) as ->.
  { pose proof (Hs ACCELEROMETER); pose proof (Hs GYROSCOPE); pose proof (Hs MAGNETOMETER); pose proof (Hs BAROMETER); pose proof (Hs ORIENTATION); pose proof (Hs LOCATION). cbn in *. lia. }
  assert (((201 <=? t) && (t <=? 205))%Z = false) as ->.
  { pose proof (Hr WIFI); pose proof (Hr BLUETOOTH); pose proof (Hr BEACON); pose proof (Hr EDDYSTONE); pose proof (Hr WIFI_RTT). cbn in *. lia. }
  destruct (Z.eqb_spec t 300); [congruence|reflexivity].
Qed.
Print Assumptions C81_unknown_type.
(** one message per line, in order *)
Theorem C81_log {F : Type} {NF : Num F} (js : list (jmsg F)) (ms : list (measurement F)) :
  nav_messages js = Ok ms -> Forall2 (fun j m => decode j = Ok m) js ms.
Proof. exact (@mapM_forall2 _ _ (@decode F NF) js ms). Qed.
Print Assumptions C81_log.
Section ExMsg.
#[local] Existing Instance nf.
Example C81_example : exists ms : list (measurement SF), nav_messages [
    mkMsg (Some 1%Z) (Some 203%Z) None (Some "a") (Some (fofZ (-60))) None None None;
    mkMsg (Some 2%Z) (Some 101%Z) (Some [fofZ 0; fofZ 0; fofZ 9]) None None None None None;
    mkMsg (Some 3%Z) (Some 300%Z) None None None None (Some 5%Z) (Some 7%Z);
    mkMsg (Some 4%Z) (Some 999%Z) None None None None None None] = Ok ms /\
  map (@st_ts _) ms = [1; 2; 3; 4]%Z /\ nth_error ms 0 = Some (mkSt (MRadio (mkRadio BEACON "a" (fofZ (-60)) f0 f0 f0)) 1%Z).
Proof. eexists. split; [vm_compute; reflexivity|]. split; [reflexivity|vm_compute; reflexivity]. Qed.
Example C81_example_missing : decode (mkMsg (Some 1%Z) (Some 203%Z) None None (Some (fofZ (-60) : SF)) None None None) = Throw.
Proof. reflexivity. Qed.
End ExMsg.
