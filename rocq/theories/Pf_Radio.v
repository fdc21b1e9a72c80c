(** Proofs for the particle likelihood, the zone estimator and the
    trilateration (C54-C57). *)
From Coq Require Import Reals Lra Lia List String Sorted Permutation Bool.
From Verif Require Import Lib NumReal LibR Likelihood Trilat Spec_Knn Spec_Radio Pf_Knn Pf_KnnEst Pf_Tri.
Import ListNotations.
Set Implicit Arguments.
Local Open Scope R_scope.
Local Open Scope list_scope.

Lemma Ok_inj A (a b : A) : Ok a = Ok b -> a = b.
Proof. intros H. inversion H. reflexivity. Qed.

(** * C54 *)
Lemma sq_nonneg x y z w : 0 <= (x - y) * (x - y) + (z - w) * (z - w).
Proof. apply Rplus_le_le_0_compat; apply Rle_0_sqr. Qed.
Lemma closeness_pos c q : 0 < closeness c q <= 10.
Proof.
  unfold closeness. assert (H := sqrt_pos ((rval (px q) - rval (px c)) * (rval (px q) - rval (px c)) + (rval (py q) - rval (py c)) * (rval (py q) - rval (py c)))).
  fold (plane_dist q c) in H. split; [apply Rdiv_lt_0_compat; lra|].
  apply Rmult_le_reg_r with (1 / 10 + plane_dist q c); [lra|]. unfold Rdiv at 1. rewrite Rmult_1_l, Rinv_l by lra. lra.
Qed.
Lemma particle_weight_real q c : real_xy q -> real_xy c -> particle_weight q c = (Some (closeness c q) : RX).
Proof.
  intros [[qx Hqx] [qy Hqy]] [[cx Hcx] [cy Hcy]]. unfold particle_weight, closeness, plane_dist. rewrite Hqx, Hqy, Hcx, Hcy. cbn [rval].
  rewrite !rx_sub, !rx_mul, rx_add. rewrite rx_sqrt by apply sq_nonneg. rewrite rx_lit by lra. rewrite rx_add, rx_f1, rx_div.
  - reflexivity.
  - assert (H := sqrt_pos ((qx - cx) * (qx - cx) + (qy - cy) * (qy - cy))). lra.
Qed.
Lemma min_sum_real : min_weight_sum = (Some (1 / 100000000) : RX).
Proof. unfold min_weight_sum. apply rx_lit. lra. Qed.

Lemma rsum_map_div A (f : A -> R) l k : rsum (map (fun x => f x / k) l) = rsum (map f l) / k.
Proof. rewrite <- (map_map f (fun x => x / k)). apply rsum_div. Qed.

Section L.
Context {SO : Sorter}.
(** the likelihood point of real data is real *)
Lemma radiomap_point_real (s : settings RX) kt (l : level RX) rps w o : real_weights w -> l_rm l = mk_radiomap rps ->
  (forall r, In r rps -> real_xy (rp_pt r)) -> radiomap_point s kt l w = Ok (Some o) -> real_xy o.
Proof.
  intros Hw Hl Hp. unfold radiomap_point. destruct (s_triangles s); cbn [negb].
  - destruct (alookup (l_id l) (kt_tris kt)) as [[|t0 tr]|]; try discriminate.
    destruct (@triangle_position (t0 :: tr) rps w ltac:(discriminate) Hw) as (t & Hh & Hz & Hc). rewrite Hl.
    assert (Hn : forall id q, point_named rps id = Some q -> exists x y, q = mkXY (Some x : RX) (Some y : RX)).
    { intros id q. unfold point_named. destruct (find _ rps) as [r|] eqn:E; [|discriminate]. intros H; injection H as <-.
      apply find_some in E. destruct (Hp r (proj1 E)) as [[x Hx] [y Hy]]. exists x, y. destruct (rp_pt r). cbn in *. subst. reflexivity. }
    destruct (Rlt_dec (tri_total w t) (/ IZR (2 ^ 52))) as [X|X].
    + rewrite Hz by auto. cbn [bind]. intros H; injection H as <-. split; eexists; reflexivity.
    + apply Rnot_lt_le in X.
      destruct (point_named rps (tr1 t)) as [q1|] eqn:P1; [|rewrite Hz by auto; cbn [bind]; intros H; injection H as <-; split; eexists; reflexivity].
      destruct (point_named rps (tr2 t)) as [q2|] eqn:P2; [|rewrite Hz by auto; cbn [bind]; intros H; injection H as <-; split; eexists; reflexivity].
      destruct (point_named rps (tr3 t)) as [q3|] eqn:P3; [|rewrite Hz by auto; cbn [bind]; intros H; injection H as <-; split; eexists; reflexivity].
      destruct (Hn _ _ P1) as (x1 & y1 & ->). destruct (Hn _ _ P2) as (x2 & y2 & ->). destruct (Hn _ _ P3) as (x3 & y3 & ->).
      destruct (Hc X _ _ _ _ _ _ eq_refl eq_refl eq_refl) as (a & b & c & _ & _ & _ & _ & _ & _ & _ & E).
      rewrite E. cbn [bind]. intros H; injection H as <-. split; eexists; reflexivity.
  - rewrite k_average_zero; [cbn [bind]; intros H; injection H as <-; split; eexists; reflexivity|].
    rewrite rx_f0, feps_real, rx_ltb. apply Rltb_true. apply Rinv_0_lt_compat, IZR_lt. lia.
Qed.

Theorem particle_distribution (s : settings RX) kt (l : level RX) rps ms ps ws : ps <> [] ->
  Forall real_radio ms -> tables_real kt -> l_rm l = mk_radiomap rps -> (forall r, In r rps -> real_xy (rp_pt r)) -> Forall real_xy ps ->
  particle_weights s kt l ms ps = Ok ws ->
  exists ids, alookup (l_id l) (kt_refs kt) = Some ids /\
  (((List.length (whitelisted ids ms) < s_minmsr s)%nat /\ ws = map (fun _ => (Some (1 / INR (List.length ps)) : RX)) ps) \/
   ((s_minmsr s <= List.length (whitelisted ids ms))%nat /\ exists rm o,
      alookup (l_id l) (kt_rmaps kt) = Some rm /\ radiomap_point s kt l (rp_weights rm (whitelisted ids ms) (s_diff s)) = Ok o /\
      match o with
      | None => ws = map (fun _ => (Some 0 : RX)) ps
      | Some c => real_xy c /\
          let T := rsum (map (closeness c) ps) in
          (1 / 100000000 < T /\ ws = map (fun q => (Some (closeness c q / T) : RX)) ps) \/
          (T <= 1 / 100000000 /\ ws = map (fun q => (Some (closeness c q) : RX)) ps)
      end)).
Proof.
  intros Hne Hm Hk Hl Hp Hq. unfold particle_weights.
  destruct (alookup (l_id l) (kt_refs kt)) as [ids|] eqn:E1; cbn [at_or_throw bind]; [|discriminate].
  intros H. exists ids. split; [reflexivity|].
  destruct (Nat.ltb_spec (List.length (whitelisted ids ms)) (s_minmsr s)) as [L|L].
  - left. split; [exact L|]. apply Ok_inj in H; subst ws. apply map_ext. intros q. rewrite rx_f1, fofnat_real, rx_div; [reflexivity|].
    apply not_0_INR. destruct ps; [congruence|discriminate].
  - right. split; [exact L|]. destruct (alookup (l_id l) (kt_rmaps kt)) as [rm|] eqn:E2; cbn [at_or_throw bind] in H; [|discriminate].
    destruct (radiomap_point s kt l (rp_weights rm (whitelisted ids ms) (s_diff s))) as [o| | |] eqn:E3; cbn [bind] in H; try discriminate.
    exists rm, o. split; [reflexivity|]. split; [exact E3|].
    assert (Hw : real_weights (rp_weights rm (whitelisted ids ms) (s_diff s))).
    { apply rp_weights_good; [apply whitelisted_real, Hm|apply (Hk _ _ E2)]. }
    destruct o as [c|].
    + assert (Hc := @radiomap_point_real s kt l rps _ c Hw Hl Hp E3). split; [exact Hc|]. cbv zeta.
      assert (Em : map (fun q => particle_weight q c) ps = map (fun q => (Some (closeness c q) : RX)) ps).
      { apply map_ext_in. intros q Hi. apply particle_weight_real; [|exact Hc]. rewrite Forall_forall in Hq. apply Hq, Hi. }
      rewrite Em in H. rewrite (@fsum_real _ _ rval) in H.
      2:{ intros x Hx. apply in_map_iff in Hx. destruct Hx as (q & <- & _). reflexivity. }
      rewrite map_map in H. cbn [rval] in H. rewrite min_sum_real, rx_ltb in H. change (fun x => closeness c x) with (closeness c) in H.
      destruct (Rltb (1 / 100000000) (rsum (map (closeness c) ps))) eqn:E.
      * apply Rltb_true in E. left. split; [exact E|]. apply Ok_inj in H; subst ws. rewrite map_map. apply map_ext. intros q. apply rx_div. lra.
      * apply Rltb_false in E. right. split; [exact E|]. apply Ok_inj in H; subst ws. reflexivity.
    + rewrite (@fsum_real _ _ (fun _ => 0)) in H.
      2:{ intros x Hx. apply in_map_iff in Hx. destruct Hx as (q & <- & _). reflexivity. }
      assert (Z : forall A (l : list A), rsum (map (fun _ => 0) l) = 0).
      { intros A l0. induction l0 as [|x t IH]; [reflexivity|]. cbn [map]. rewrite rsum_cons, IH. lra. }
      rewrite Z, min_sum_real, rx_ltb in H.
      assert (E : Rltb (1 / 100000000) 0 = false) by (apply Rltb_false; lra). rewrite E in H. apply Ok_inj in H; subst ws. reflexivity.
Qed.
End L.

(** consequences *)
Lemma uniform_sum (ps : list (XY RX)) : ps <> [] -> rsum (map rval (map (fun _ => (Some (1 / INR (List.length ps)) : RX)) ps)) = 1.
Proof.
  intros Hne. rewrite map_map. cbn [rval]. rewrite (rsum_const (fun _ => 1 / INR (List.length ps)) ps (k := 1 / INR (List.length ps))) by reflexivity.
  field. apply not_0_INR. destruct ps; [congruence|discriminate].
Qed.
Lemma normal_sum c (ps : list (XY RX)) : 1 / 100000000 < rsum (map (closeness c) ps) ->
  rsum (map rval (map (fun q => (Some (closeness c q / rsum (map (closeness c) ps)) : RX)) ps)) = 1.
Proof. intros H. rewrite map_map. cbn [rval]. rewrite rsum_map_div. unfold Rdiv. apply Rinv_r. lra. Qed.

Lemma rsum_member l x : (forall y, In y l -> 0 <= y) -> In x l -> x <= rsum l.
Proof.
  intros H Hi. induction l as [|y t IH]; [destruct Hi|]. rewrite rsum_cons. 
  assert (H0 : 0 <= y) by (apply H; left; reflexivity). assert (Ht : 0 <= rsum t) by (apply rsum_nonneg; intros z Hz; apply H; right; exact Hz).
  destruct Hi as [->|Hi]; [lra|]. assert (x <= rsum t) by (apply IH; [intros z Hz; apply H; right; exact Hz|exact Hi]). lra.
Qed.

(** * C55 *)
Lemma place_lookup (l : level RX) id : place_of l id = match alookup id (l_txs l) with Some t => Some (t_pt t) | None => None end.
Proof. unfold place_of. rewrite find_alookup. destruct (find _ (l_txs l)); reflexivity. Qed.
Lemma contains_place (l : level RX) id : contains_tx l id = true <-> place_of l id <> None.
Proof.
  rewrite place_lookup. unfold contains_tx, amem. destruct (alookup id (l_txs l)); split; intros H; try congruence; try discriminate. 
Qed.
Lemma filter_split A (q : A -> bool) l l1 x l2 : filter q l = l1 ++ x :: l2 ->
  exists m1 m2, l = m1 ++ x :: m2 /\ filter q m1 = l1 /\ filter q m2 = l2.
Proof.
  revert l1; induction l as [|y t IH]; intros l1 H; [destruct l1; discriminate|]. cbn [filter] in H.
  destruct (q y) eqn:E.
  - destruct l1 as [|z l1]; cbn [app] in H; injection H as -> H.
    + exists [], t. auto.
    + destruct (IH l1 H) as (m1 & m2 & -> & E1 & E2). exists (z :: m1), m2. cbn [app filter]. rewrite E, E1. auto.
  - destruct (IH l1 H) as (m1 & m2 & -> & E1 & E2). exists (y :: m1), m2. cbn [app filter]. rewrite E. auto.
Qed.

Theorem zone_exact (zt : list (string * (RX * RX))) (l : level RX) ts ms : Forall (fun m => defined (r_rssi m)) ms ->
  ((forall m, In m ms -> place_of l (r_id m) = None) /\ zone_position zt l ts ms = Ok (NO_SOLUTION, pos0)) \/
  exists m p, strongest l ms m /\ place_of l (r_id m) = Some p /\
    exists d, zone_position zt l ts ms = Ok (OK, mkPos (zx p) (zy p) (l_id l) d ts false INDOOR (Some 0 : RX)) /\
    forall A B, alookup (l_id l) zt = Some ((Some A : RX), (Some B : RX)) -> B <> 0 ->
      exists dev, d = (Some dev : RX) /\ 1 < dev /\ dev = sqrt (exp ((A - rval (r_rssi m)) / B)) + 1.
Proof.
  intros Hr. unfold zone_position. destruct (level_radio l ms) as [|m0 rest] eqn:E.
  - left. split; [|destruct ms; reflexivity]. intros m Hm. destruct (place_of l (r_id m)) as [p|] eqn:Ep; [|reflexivity].
    assert (X : In m (level_radio l ms)) by (apply filter_In; split; [exact Hm|apply contains_place; congruence]). rewrite E in X. destruct X.
  - right. destruct ms as [|r0 rs]; [discriminate|]. set (ms := r0 :: rs) in *.
    set (n := max_elem_from _ m0 rest).
    assert (Hd : forall m, In m (m0 :: rest) -> defined (r_rssi m)).
    { intros m Hm. rewrite <- E in Hm. apply filter_In in Hm. rewrite Forall_forall in Hr. apply Hr, Hm. }
    assert (Sp : exists l1 l2, m0 :: rest = l1 ++ n :: l2 /\ (forall u, In u l1 -> rval (r_rssi u) < rval (r_rssi n)) /\ (forall u, In u l2 -> rval (r_rssi u) <= rval (r_rssi n))).
    { unfold n. clear n E. revert m0 Hd. induction rest as [|x t IH]; intros b Hd.
      - exists [], []. cbn. split; [reflexivity|]. split; intros u [].
      - cbn [max_elem_from].
        assert (Eb := rval_some (Hd b (or_introl eq_refl))). assert (Ex := rval_some (Hd x (or_intror (or_introl eq_refl)))).
        assert (Lt : (r_rssi b <! r_rssi x) = Rltb (rval (r_rssi b)) (rval (r_rssi x))) by (rewrite Eb, Ex; reflexivity).
        rewrite Lt.
        destruct (Rltb (rval (r_rssi b)) (rval (r_rssi x))) eqn:L.
        + apply Rltb_true in L. destruct (IH x) as (l1 & l2 & E1 & H1 & H2).
          { intros m Hm. apply Hd. right; exact Hm. }
          set (mm := max_elem_from _ x t) in *.
          assert (Hx : rval (r_rssi x) <= rval (r_rssi mm)).
          { destruct l1 as [|y t1]; cbn [app] in E1; injection E1 as E1 E2; [rewrite <- E1; lra|]. subst y. left. apply H1. left; reflexivity. }
          exists (b :: l1), l2. split; [cbn [app]; f_equal; exact E1|]. split; [|exact H2].
          intros u [<-|Hu]; [lra|apply H1, Hu].
        + apply Rltb_false in L. destruct (IH b) as (l1 & l2 & E1 & H1 & H2).
          { intros m [<-|Hm]; apply Hd; [left; reflexivity|right; right; exact Hm]. }
          set (mm := max_elem_from _ b t) in *.
          destruct l1 as [|y t1]; cbn [app] in E1; injection E1 as E1 E2.
          * exists [], (x :: l2). cbn [app]. split; [congruence|]. split; [intros u []|].
            intros u [<-|Hu]; [rewrite <- E1; exact L|apply H2, Hu].
          * subst y. assert (Hb := H1 b (or_introl eq_refl)). exists (b :: x :: t1), l2. cbn [app]. split; [congruence|]. split; [|exact H2].
            intros u [<-|[<-|Hu]]; [exact Hb|lra|apply H1; right; exact Hu]. }
    destruct Sp as (l1 & l2 & Es & H1 & H2). rewrite <- E in Es.
    destruct (@filter_split _ _ _ _ _ _ Es) as (a1 & a2 & Ea & F1 & F2).
    assert (Hn : In n (level_radio l ms)) by (rewrite Es; apply in_or_app; right; left; reflexivity).
    assert (Cn : contains_tx l (r_id n) = true) by (apply filter_In in Hn; apply Hn).
    assert (Pn := proj1 (contains_place l (r_id n)) Cn).
    destruct (place_of l (r_id n)) as [p|] eqn:Ep; [|congruence].
    exists n, p. split; [|split; [exact Ep|]].
    { split; [congruence|]. exists a1, a2. split; [exact Ea|]. split; intros u Hu Pu; apply contains_place in Pu.
      - apply H1. rewrite <- F1. apply filter_In; auto.
      - apply H2. rewrite <- F2. apply filter_In; auto. }
    rewrite Cn. unfold get_tx. rewrite place_lookup in Ep. destruct (alookup (r_id n) (l_txs l)) as [t|]; [|discriminate].
    injection Ep as <-. cbn [at_or_throw bind px py].
    assert (Rn : defined (r_rssi n)).
    { apply Hd. rewrite <- E. exact Hn. }
    destruct (mget (f0, f0) (l_id l) zt) as [A0 B0] eqn:Ez. eexists. split; [reflexivity|].
    intros A B Hz HB. unfold mget in Ez. rewrite Hz in Ez. injection Ez as <- <-.
    rewrite (rval_some Rn), rx_sub, rx_div by exact HB.
    set (q := (A - rval (r_rssi n)) / B). exists (sqrt (exp q) + 1).
    assert (Eq := exp_pos q). change (fexp (Some q : RX)) with (Some (exp q) : RX). rewrite rx_sqrt by lra. rewrite rx_f1, rx_add.
    split; [reflexivity|]. assert (S := sqrt_lt_R0 _ Eq). split; [lra|reflexivity].
Qed.
