(** C98: the interface of the radio-map likelihood. *)
From Coq Require Import Reals Lra Psatz.
From Verif Require Import Lib NumReal NumFloat LibR SortInst Like Spec_Knn Spec_Radio Spec_Like Pf_Knn Pf_KnnEst Pf_Radio Pf_Like Ex P_Knn.
Local Open Scope string_scope.
Local Open Scope list_scope.
#[local] Existing Instance nf.
#[local] Existing Instance isorter.

(** hasSufficientMeasurements: enough of the measurements are from transmitters
    of the level's fingerprints; an unknown level throws *)
Theorem C98_sufficient {F} {NF : Num F} {SO : Sorter} (kt : ktables F) l ms need :
  (alookup (l_id l) (kt_refs kt) = None -> sufficient kt l ms need = Throw) /\
  (alookup (l_id l) (kt_refs kt) <> None -> exists b, sufficient kt l ms need = Ok b /\ (b = true <-> enough kt need l ms)).
Proof. exact (@sufficient_exact F NF kt l ms need). Qed.
Print Assumptions C98_sufficient.

(** after any calls the remembered point is the one of the last call with enough
    measurements, for whatever level that call was *)
Theorem C98_last {F} {NF : Num F} {SO : Sorter} (s : settings F) kt calls st : preliminary_all s kt None calls = Ok st ->
  (Forall (fun c => ~ enough kt (s_minmsr s) (fst c) (snd c)) calls /\ st = None) \/
  exists pre l ms post ids rm, calls = pre ++ (l, ms) :: post /\ enough kt (s_minmsr s) l ms /\
    Forall (fun c => ~ enough kt (s_minmsr s) (fst c) (snd c)) post /\
    alookup (l_id l) (kt_refs kt) = Some ids /\ alookup (l_id l) (kt_rmaps kt) = Some rm /\
    radiomap_point s kt l (rp_weights rm (whitelisted ids ms) (s_diff s)) = Ok st.
Proof.
  intros H. destruct (@last_call F NF SO s kt calls None st H) as [?|(pre & l & ms & post & st1 & -> & En & N & E)]; [auto|]. right.
  apply (@preliminary_enough F NF SO s kt st1 l ms En) in E. destruct E as (ids & rm & E1 & E2 & E3). exists pre, l, ms, post, ids, rm. auto 10.
Qed.
Print Assumptions C98_last.

(** the sampling centres: none or the remembered point, which is also kept *)
Theorem C98_centers {F} {NF : Num F} {SO : Sorter} (s : settings F) kt calls l ms st st' cs :
  preliminary_all s kt None calls = Ok st -> sampling_centers s kt st l ms = Ok (st', cs) ->
  preliminary_all s kt None (calls ++ [(l, ms)]) = Ok st' /\ (forall p, In p cs <-> st' = Some p) /\ (List.length cs <= 1)%nat.
Proof.
  intros H1 H2. unfold sampling_centers in H2. destruct (bind_ok _ _ H2) as (st1 & E1 & E2). apply Ok_inj, pair_equal_spec in E2. destruct E2 as [<- <-].
  assert (A : forall cs st0, preliminary_all s kt st0 cs = Ok st -> preliminary_all s kt st0 (cs ++ [(l, ms)]) = Ok st1).
  { induction cs as [|[l' ms'] r IH]; intros st0 H; cbn [preliminary_all app] in *.
    - apply Ok_inj in H. subst st0. rewrite E1. reflexivity.
    - destruct (bind_ok _ _ H) as (st2 & -> & H'). cbn [bind]. apply IH, H'. }
  split; [apply A, H1|]. destruct st1 as [p|]; cbn [In List.length]; (split; [|lia]); intros q; split; try tauto; try congruence.
  - intros [->|[]]. reflexivity.
  - intros [= ->]. auto.
Qed.
Print Assumptions C98_centers.

(** the point of a call with enough measurements belongs to its level: it lies in
    a triangle of reference points of the level, or is the origin *)
Theorem C98_fresh {SO : Sorter} (s : settings RX) kt st l (rps : list (refpoint RX)) ms c :
  s_triangles s = true -> enough kt (s_minmsr s) l ms -> Forall real_radio ms -> tables_real kt -> l_rm l = mk_radiomap rps ->
  (forall r, In r rps -> real_xy (rp_pt r)) -> preliminary s kt st l ms = Ok (Some c) ->
  c = mkXY (Some 0%R : RX) (Some 0%R : RX) \/
  exists tris t a b d p q r, alookup (l_id l) (kt_tris kt) = Some tris /\ In t tris /\
    point_named rps (tr1 t) = Some p /\ point_named rps (tr2 t) = Some q /\ point_named rps (tr3 t) = Some r /\
    (0 <= a)%R /\ (0 <= b)%R /\ (0 <= d)%R /\ (a + b + d = 1)%R /\
    c = mkXY (Some (a * rval (px p) + b * rval (px q) + d * rval (px r))%R : RX) (Some (a * rval (py p) + b * rval (py q) + d * rval (py r))%R : RX).
Proof.
  intros Ht En Hm Hk Hl Hp H. apply (@preliminary_enough RX num_real SO s kt st l ms En) in H. destruct H as (ids & rm & E1 & E2 & E3).
  assert (Hw : real_weights (rp_weights rm (whitelisted ids ms) (s_diff s))).
  { apply rp_weights_good; [apply whitelisted_real, Hm|apply (Hk _ _ E2)]. }
  unfold radiomap_point in E3. rewrite Ht in E3. cbn [negb] in E3.
  destruct (alookup (l_id l) (kt_tris kt)) as [[|t0 tr]|] eqn:E4; try discriminate.
  set (w := rp_weights rm (whitelisted ids ms) (s_diff s)) in *.
  destruct (@triangle_position (t0 :: tr) rps w ltac:(discriminate) Hw) as (t & Hh & Hz & Hc). rewrite Hl in E3.
  assert (HI : In t (t0 :: tr)). { destruct Hh as (l1 & l2 & E & _). rewrite E. apply in_or_app. right. left. reflexivity. }
  assert (Hn : forall id q, point_named rps id = Some q -> exists x y, q = mkXY (Some x : RX) (Some y : RX)).
  { intros id q. unfold point_named. destruct (find _ rps) as [r|] eqn:E; [|discriminate]. intros X; injection X as <-.
    apply find_some in E. destruct (Hp r (proj1 E)) as [[x Hx] [y Hy]]. exists x, y. destruct (rp_pt r). cbn in *. subst. reflexivity. }
  assert (Z : position_in_triangle (t0 :: tr) (mk_radiomap rps) w = Ok (mkXY (Some 0%R : RX) (Some 0%R : RX)) -> c = mkXY (Some 0%R : RX) (Some 0%R : RX)).
  { intros E. rewrite E in E3. cbn [bind] in E3. apply Ok_inj in E3. congruence. }
  destruct (Rlt_dec (tri_total w t) (/ IZR (2 ^ 52))) as [X|X]; [left; apply Z, Hz; auto|]. apply Rnot_lt_le in X.
  destruct (point_named rps (tr1 t)) as [q1|] eqn:P1; [|left; apply Z, Hz; auto].
  destruct (point_named rps (tr2 t)) as [q2|] eqn:P2; [|left; apply Z, Hz; auto].
  destruct (point_named rps (tr3 t)) as [q3|] eqn:P3; [|left; apply Z, Hz; auto]. right.
  destruct (Hn _ _ P1) as (x1 & y1 & ->), (Hn _ _ P2) as (x2 & y2 & ->), (Hn _ _ P3) as (x3 & y3 & ->).
  destruct (Hc X _ _ _ _ _ _ eq_refl eq_refl eq_refl) as (a & b & d & A & B & D & S & _ & _ & _ & E).
  exists (t0 :: tr), t, a, b, d. do 3 eexists. split; [reflexivity|]. split; [exact HI|]. split; [exact P1|]. split; [exact P2|]. split; [exact P3|].
  repeat (split; [assumption|]). rewrite E in E3. cbn [bind] in E3. apply Ok_inj in E3. cbn [px py rval]. congruence.
Qed.
Print Assumptions C98_fresh.

(** calculateWeights and getWeight agree: with enough measurements the weights of
    the particles are those of the remembered point, divided by their sum if that
    exceeds 1e-8 *)
Theorem C98_weights {F} {NF : Num F} {SO : Sorter} (s : settings F) kt l ms st ps ws : enough kt (s_minmsr s) l ms ->
  particle_weights s kt l ms ps = Ok ws <-> exists st', preliminary s kt st l ms = Ok st' /\
    let raw := map (fun p => point_weight st' (px p) (py p)) ps in
    ws = if lit 1 100000000 <! fold_left (fun a w => a +! w) raw f0 then map (fun w => w /! fold_left (fun a w => a +! w) raw f0) raw else raw.
Proof.
  intros (ids & E & L). rewrite <- from_among_length in L. unfold particle_weights, preliminary. rewrite E. cbn [at_or_throw bind].
  destruct (Nat.ltb_spec (List.length (whitelisted ids ms)) (s_minmsr s)) as [L'|_]; [lia|]. apply Nat.leb_le in L. rewrite L.
  destruct (alookup (l_id l) (kt_rmaps kt)) as [rm|]; cbn [at_or_throw bind]; [|split; [discriminate|intros (st' & H & _); discriminate]].
  destruct (radiomap_point s kt l _) as [p| | |]; cbn [bind]; try (split; [discriminate|intros (st' & H & _); discriminate]).
  assert (M : forall p, map (fun q => match p with Some c => particle_weight q c | None => f0 end) ps = map (fun q : XY F => point_weight p (px q) (py q)) ps).
  { intros o. apply map_ext. intros [x y]. reflexivity. }
  rewrite M. split.
  - intros H. apply Ok_inj in H. exists p. split; [reflexivity|]. symmetry. exact H.
  - intros (st' & H & ->). apply Ok_inj in H. subst st'. reflexivity.
Qed.
Print Assumptions C98_weights.
(** nearer to the remembered point is heavier, at most 10; without one the weight is zero *)
Theorem C98_nearer (c p q : XY RX) : real_xy c -> real_xy p -> real_xy q -> exists u v,
  point_weight (Some c) (px p) (py p) = Some u /\ point_weight (Some c) (px q) (py q) = Some v /\ (0 < u <= 10)%R /\
  ((plane_dist p c < plane_dist q c)%R -> (v < u)%R) /\ (plane_dist p c = 0%R -> u = 10%R) /\ point_weight None (px p) (py p) = (Some 0%R : RX).
Proof.
  intros Hc Hp Hq. exists (closeness c p), (closeness c q).
  assert (W : forall z, real_xy z -> point_weight (Some c) (px z) (py z) = (Some (closeness c z) : RX)).
  { intros [x y] Hz. apply (@particle_weight_real (mkXY x y) c Hz Hc). }
  split; [apply W, Hp|]. split; [apply W, Hq|]. split; [apply closeness_pos|]. split; [|split; [|reflexivity]].
  - intros H. unfold closeness. assert (P0 : (0 <= plane_dist p c)%R) by apply sqrt_pos.
    unfold Rdiv. rewrite !Rmult_1_l. apply Rinv_lt_contravar; [|lra]. apply Rmult_lt_0_compat; lra.
  - intros H. unfold closeness. rewrite H. lra.
Qed.
Print Assumptions C98_nearer.

(** isParticleInIntersectionArea: yes iff the particle is within all measured
    distances, up to 1e-7; transmitters after the first one that is too far are
    not looked at, an unknown transmitter before that throws *)
Theorem C98_area (l : level RX) ms x y : Forall (real_tx l) ms ->
  (in_intersection_area l ms (Some x) (Some y) = Ok true <-> Forall (within l x y) ms) /\
  (in_intersection_area l ms (Some x) (Some y) = Ok false <-> exists pre m post, ms = pre ++ m :: post /\ Forall (within l x y) pre /\ beyond l x y m) /\
  (in_intersection_area l ms (Some x) (Some y) = Throw <-> exists pre m post, ms = pre ++ m :: post /\ Forall (within l x y) pre /\ tx_place l (r_id m) = None).
Proof.
  intros H. split; [apply area_true, H|].
  assert (U : forall pre m post pre' m' post', pre ++ m :: post = pre' ++ m' :: post' -> Forall (within l x y) pre -> Forall (within l x y) pre' ->
    ~ within l x y m -> ~ within l x y m' -> m = m').
  { induction pre as [|a r IH]; intros m post pre' m' post' E A B N N'.
    - destruct pre' as [|b r']; [cbn in E; congruence|]. exfalso. apply N. cbn in E. injection E as -> _. exact (Forall_inv B).
    - destruct pre' as [|b r'].
      + exfalso. apply N'. cbn in E. injection E as -> _. exact (Forall_inv A).
      + cbn in E. injection E as -> E. eapply IH; eauto using Forall_inv_tail. }
  assert (NB : forall m, beyond l x y m -> ~ within l x y m) by (intros m B W; apply within_not in W; tauto).
  assert (NN : forall m, tx_place l (r_id m) = None -> ~ within l x y m) by (intros m B W; apply within_not in W; tauto).
  assert (NX : forall m, beyond l x y m -> tx_place l (r_id m) <> None) by (intros m (u & v & -> & _); discriminate).
  destruct (@area_step l ms x y H) as [[E A]|(pre & m & post & E0 & A & [[E B]|[E B]])]; rewrite E.
  - split; (split; [discriminate|]); intros (pre & m & post & -> & _ & B); apply Forall_app in A; destruct A as [_ A]; apply Forall_inv, within_not in A; tauto.
  - split; [split; [eauto 10|reflexivity]|]. split; [discriminate|]. intros (pre' & m' & post' & E' & A' & B'). exfalso.
    rewrite E0 in E'. assert (m = m') by (eapply U; eauto). subst m'. exact (NX _ B B').
  - split; [|split; [eauto 10|reflexivity]]. split; [discriminate|]. intros (pre' & m' & post' & E' & A' & B'). exfalso.
    rewrite E0 in E'. assert (m = m') by (eapply U; eauto). subst m'. exact (NX _ B' B).
Qed.
Print Assumptions C98_area.
(** the area is convex *)
Theorem C98_area_convex (l : level RX) ms x1 y1 x2 y2 k : Forall (real_tx l) ms -> (0 <= k <= 1)%R ->
  in_intersection_area l ms (Some x1) (Some y1) = Ok true -> in_intersection_area l ms (Some x2) (Some y2) = Ok true ->
  in_intersection_area l ms (Some (x1 + k * (x2 - x1))%R) (Some (y1 + k * (y2 - y1))%R) = Ok true.
Proof.
  intros H Hk. rewrite !area_true by exact H. rewrite !Forall_forall. intros A B m Hm. specialize (A m Hm). specialize (B m Hm).
  destruct A as (u & v & E & A), B as (u' & v' & E' & B). rewrite E in E'. injection E' as <- <-. exists u, v. split; [exact E|]. apply circle_convex; assumption.
Qed.
Print Assumptions C98_area_convex.

(** two levels, one with four reference points far from the origin *)
Definition ex_K1 : level SF := ex_level "K1" [ex_tx "a" 1 1; ex_tx "b" 10 1]
  [ex_rp "p1" 31 31 [ex_fp "a" (-50); ex_fp "b" (-60); ex_fp "d" (-70)]; ex_rp "p2" 40 31 [ex_fp "a" (-60); ex_fp "b" (-50); ex_fp "d" (-70)];
   ex_rp "p3" 35 40 [ex_fp "a" (-65); ex_fp "b" (-65); ex_fp "d" (-50)]; ex_rp "p4" 44 44 [ex_fp "a" (-75); ex_fp "b" (-70); ex_fp "d" (-60)]].
Definition ex_K2 : level SF := ex_level "K2" [ex_tx "c" 1 1]
  [ex_rp "q1" 1 1 [ex_fp "c" (-50)]; ex_rp "q2" 5 1 [ex_fp "c" (-55)]; ex_rp "q3" 1 6 [ex_fp "c" (-60)]; ex_rp "q4" 7 8 [ex_fp "c" (-70)]].
Definition ex_Kcol : collector SF := mkCol [ex_K1; ex_K2] [("K1", 0%nat); ("K2", 1%nat)].
Definition ex_Ks : settings SF := ex_settings KNN false 3%nat false false false.
(** the centre given for the second level, of which nothing is heard, is the point
    of the first one, more than 20 m from every reference point of the second *)
Theorem C98_stale_refuted : exists (s : settings SF) c l1 l2 kt ms ms' st st' p,
  col_levels c = [l1; l2] /\ l_id l1 <> l_id l2 /\ like_tables s c = Ok kt /\ preliminary_all s kt None [(l1, ms)] = Ok st /\
  sufficient kt l2 ms' (s_minmsr s) = Ok false /\ sampling_centers s kt st l2 ms' = Ok (st', [p]) /\
  forall r, In r (rm_points (l_rm l2)) -> (fofZ 20 <! get_dist (px p) (py p) (px (rp_pt r)) (py (rp_pt r))) = true.
Proof.
  exists ex_Ks, ex_Kcol, ex_K1, ex_K2. destruct (like_tables ex_Ks ex_Kcol) as [kt| | |] eqn:E; [|vm_compute in E; discriminate..].
  vm_compute in E. apply Ok_inj in E. exists kt, ex_ms, []. do 3 eexists. split; [reflexivity|]. split; [discriminate|]. split; [reflexivity|].
  split; [rewrite <- E; vm_compute; reflexivity|]. split; [rewrite <- E; vm_compute; reflexivity|]. split; [rewrite <- E; vm_compute; reflexivity|].
  intros r Hr. repeat (destruct Hr as [<-|Hr]; [vm_compute; reflexivity|]). destruct Hr.
Qed.
Print Assumptions C98_stale_refuted.
Example C98_example : exists kt p, like_tables ex_Ks ex_Kcol = Ok kt /\ enough kt (s_minmsr ex_Ks) ex_K1 ex_ms /\ ~ enough kt (s_minmsr ex_Ks) ex_K2 ex_ms /\
  preliminary_all ex_Ks kt None [(ex_K2, ex_ms); (ex_K1, ex_ms)] = Ok (Some p) /\
  (fofZ 31 <=! px p) && (px p <=! fofZ 44) && (fofZ 31 <=! py p) && (py p <=! fofZ 44) = true.
Proof.
  destruct (like_tables ex_Ks ex_Kcol) as [kt| | |] eqn:E; [|vm_compute in E; discriminate..]. vm_compute in E. apply Ok_inj in E.
  assert (R1 : alookup "K1" (kt_refs kt) = Some ["a"; "b"; "d"; "a"; "b"; "d"; "a"; "b"; "d"; "a"; "b"; "d"]) by (rewrite <- E; vm_compute; reflexivity).
  assert (R2 : alookup "K2" (kt_refs kt) = Some ["c"; "c"; "c"; "c"]) by (rewrite <- E; vm_compute; reflexivity).
  assert (P : exists p, preliminary_all ex_Ks kt None [(ex_K2, ex_ms); (ex_K1, ex_ms)] = Ok (Some p) /\
    (fofZ 31 <=! px p) && (px p <=! fofZ 44) && (fofZ 31 <=! py p) && (py p <=! fofZ 44) = true).
  { rewrite <- E. eexists. split; [vm_compute; reflexivity|vm_compute; reflexivity]. }
  clear E. destruct P as (p & P1 & P2). exists kt, p. split; [reflexivity|]. split; [|split; [|split; [exact P1|exact P2]]].
  - eexists. split; [exact R1|]. vm_compute. repeat constructor.
  - intros (ids & H & L). change (l_id ex_K2) with "K2" in H. rewrite R2 in H. injection H as <-. vm_compute in L. apply Nat.leb_le in L. discriminate L.
Qed.
Example C98_area_example : exists m : radio RX, let l := ex_level "L" [ex_tx "a" 1 1] [] in
  Forall (real_tx l) [m; m] /\ in_intersection_area l [m; m] (Some 3%R) (Some 1%R) = Ok true.
Proof.
  set (m := mkRadio BEACON "a" (Some 0%R) (Some 0%R) (Some 2%R) (Some 0%R) : radio RX). exists m. intros l.
  assert (R : real_tx l m). { split; [exists 2%R; reflexivity|]. intros t H. cbn in H. injection H as <-. split; eexists; reflexivity. }
  assert (FR : Forall (real_tx l) [m; m]) by (apply Forall_cons; [exact R|apply Forall_cons; [exact R|apply Forall_nil]]). split; [exact FR|]. apply area_true; [exact FR|].
  assert (W : within l 3 1 m); [|apply Forall_cons; [exact W|apply Forall_cons; [exact W|apply Forall_nil]]]. exists 1%R, 1%R. split; [reflexivity|].
  replace ((1 - 3) * (1 - 3) + (1 - 1) * (1 - 1))%R with (2 * 2)%R by ring. rewrite sqrt_square by lra. cbn [m r_dist rval]. lra.
Qed.
