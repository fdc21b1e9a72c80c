(** Measurements received stronger or in another order (C91). *)
From Coq Require Import Lia Reals Lra Permutation.
From Verif Require Import Lib NumReal LibR Knn Estimators Spec_Knn Spec_Offset Pf_Knn Pf_KnnEst Pf_Radio.
Set Implicit Arguments.
Local Open Scope R_scope.

(** ** Same weights, same position *)
Lemma mget_ext V (d : V) w w' id : (forall i, alookup i w = alookup i w') -> mget d id w = mget d id w'.
Proof. intros H. unfold mget. rewrite H. reflexivity. Qed.
Lemma max_elem_ext A (lt lt' : A -> A -> bool) : (forall a b, lt a b = lt' a b) -> forall l x, max_elem_from lt x l = max_elem_from lt' x l.
Proof. intros H. induction l as [|y l IH]; intros x; [reflexivity|]. cbn [max_elem_from]. rewrite H, !IH. reflexivity. Qed.
Lemma in_triangle_ext ts (rm : radiomap RX) w w' : (forall i, alookup i w = alookup i w') ->
  position_in_triangle ts rm w = position_in_triangle ts rm w'.
Proof.
  intros H. destruct ts as [|t0 ts]; [reflexivity|]. cbn [position_in_triangle].
  assert (T : forall t, triangle_weight w t = triangle_weight w' t).
  { intros t. unfold triangle_weight. rewrite !(@mget_ext _ f0 w w') by exact H. reflexivity. }
  rewrite (@max_elem_ext _ _ (fun a b => triangle_weight w' a <! triangle_weight w' b)) by (intros a b; rewrite !T; reflexivity).
  rewrite !(@mget_ext _ f0 w w') by exact H. reflexivity.
Qed.
Lemma knn_ext {SO : Sorter} (s : settings RX) kt mpos l ts ms ms' : (ms = [] <-> ms' = []) ->
  (forall ids, List.length (whitelisted ids ms) = List.length (whitelisted ids ms')) ->
  (forall ids rm id, alookup (l_id l) (kt_rmaps kt) = Some rm ->
     alookup id (rp_weights rm (whitelisted ids ms) (s_diff s)) = alookup id (rp_weights rm (whitelisted ids ms') (s_diff s))) ->
  knn_position s kt mpos l ts ms = knn_position s kt mpos l ts ms'.
Proof.
  intros Hn Hl Hw. unfold knn_position. destruct ms as [|m ms]; destruct ms' as [|m' ms'];
    [reflexivity|destruct Hn as [Hn _]; discriminate (Hn eq_refl)|destruct Hn as [_ Hn]; discriminate (Hn eq_refl)|].
  destruct (alookup (l_id l) (kt_refs kt)) as [ids|]; [|reflexivity]. cbn [at_or_throw bind]. rewrite (Hl ids).
  destruct (Nat.ltb _ _); [reflexivity|]. destruct (alookup (l_id l) (kt_rmaps kt)) as [rm|] eqn:E; [|reflexivity]. cbn [at_or_throw bind].
  destruct (s_triangles s).
  - destruct (alookup (l_id l) (kt_tris kt)) as [[|t ts']|]; [reflexivity| |reflexivity].
    rewrite (@in_triangle_ext (t :: ts') (l_rm l) _ _ (fun i => Hw ids rm i eq_refl)). reflexivity.
  - reflexivity.
Qed.

(** ** Stronger reception *)
Lemma trust_louder k m : trust (louder k m) = Rpower 10 (6 / 100 * k) * trust m.
Proof. unfold trust, assumed_power, louder. cbn [r_rssi r_power rval]. rewrite <- Rpower_plus. f_equal. lra. Qed.
Lemma louder_real k ms : Forall real_radio ms -> Forall real_radio (map (louder k) ms).
Proof. induction 1 as [|m ms [H1 H2] _ IH]; constructor; [|exact IH]. split; [eexists; reflexivity|exact H2]. Qed.
Lemma rsum_scale A (f : A -> R) a l : rsum (map (fun x => a * f x) l) = a * rsum (map f l).
Proof. induction l as [|x l IH]; cbn [map]; rewrite ?rsum_nil, ?rsum_cons; [lra|]. rewrite IH. ring. Qed.
Lemma find_map A B (f : A -> B) q l : find q (map f l) = option_map f (find (fun x => q (f x)) l).
Proof. induction l as [|x l IH]; [reflexivity|]. cbn. destruct (q (f x)); [reflexivity|exact IH]. Qed.
Lemma share_louder k ms id : share (map (louder k) ms) id = share ms id.
Proof.
  unfold share. rewrite <- map_rev, find_map. change (fun x => String.eqb id (r_id (louder k x))) with (fun m : radio RX => String.eqb id (r_id m)).
  destruct (find (fun m : radio RX => String.eqb id (r_id m)) (rev ms)) as [m|] eqn:E; [|reflexivity]. cbn [option_map].
  rewrite map_map, (map_ext (fun x => trust (louder k x)) (fun x => Rpower 10 (6 / 100 * k) * trust x)) by (intros; apply trust_louder).
  rewrite rsum_scale, trust_louder.
  assert (P : 0 < Rpower 10 (6 / 100 * k)) by apply Rpower_gt0.
  assert (T : 0 < rsum (map trust ms)). { apply tx_total_pos. intros ->. discriminate. }
  field. lra.
Qed.
Definition more (k j : R) (c : common) : common := mkCommon (c_tx c) (c_meas c + k) (c_db c + j).
Lemma flat_map_map' A B C (f : A -> B) (g : B -> list C) l : flat_map g (map f l) = flat_map (fun x => g (f x)) l.
Proof. induction l as [|x l IH]; [reflexivity|]. cbn. rewrite IH. reflexivity. Qed.
Lemma map_flat_map A B C (f : B -> C) (g : A -> list B) l : map f (flat_map g l) = flat_map (fun x => map f (g x)) l.
Proof. induction l as [|x l IH]; [reflexivity|]. cbn. rewrite map_app, IH. reflexivity. Qed.
Lemma commons_louder k j rm ms p : commons (surveyed_louder j rm) (map (louder k) ms) p = map (more k j) (commons rm ms p).
Proof.
  unfold commons, surveyed_louder. rewrite flat_map_map', map_flat_map. apply flat_map_ext. intros m.
  rewrite flat_map_map', map_flat_map. apply flat_map_ext. intros e. cbn [fst snd louder r_id r_rssi ss_mean rval].
  destruct (_ && _); reflexivity.
Qed.
Lemma commons_louder1 k rm ms p : commons rm (map (louder k) ms) p = map (more k 0) (commons rm ms p).
Proof.
  unfold commons. rewrite flat_map_map', map_flat_map. apply flat_map_ext. intros m.
  rewrite map_flat_map. apply flat_map_ext. intros e. cbn [louder r_id r_rssi rval].
  destruct (_ && _); [|reflexivity]. cbn. unfold more. cbn. rewrite Rplus_0_r. reflexivity.
Qed.
Lemma diff_more w k j l : diff_total w (map (more k j) l) = diff_total w l /\ diff_norm w (map (more k j) l) = diff_norm w l.
Proof.
  unfold diff_total, diff_norm. rewrite pairs_map, !map_map. split; [|reflexivity].
  f_equal. apply map_ext. intros [c d]. cbn [fst snd more c_tx]. unfold pair_mismatch. cbn [more c_db c_meas].
  replace (c_db c + j - (c_db d + j) - (c_meas c + k - (c_meas d + k))) with (c_db c - c_db d - (c_meas c - c_meas d)) by ring. reflexivity.
Qed.
Lemma weight_more w k j l : point_weight_of true w (map (more k j) l) = point_weight_of true w l.
Proof. unfold point_weight_of. cbn [diff_total]. destruct (diff_more w k j l) as [-> ->]. rewrite map_length. reflexivity. Qed.
Lemma surveyed_real j rm : real_map (surveyed_louder j rm).
Proof. unfold real_map, surveyed_louder. induction rm as [|e rm IH]; constructor; [|exact IH]. eexists. reflexivity. Qed.
Lemma point_weight_ext diff w w' l : (forall i, w i = w' i) -> point_weight_of diff w l = point_weight_of diff w' l.
Proof.
  intros H. unfold point_weight_of.
  assert (E : diff_total w l = diff_total w' l /\ diff_norm w l = diff_norm w' l /\ plain_total w l = plain_total w' l /\ plain_norm w l = plain_norm w' l).
  { unfold diff_total, diff_norm, plain_total, plain_norm. repeat split; f_equal; apply map_ext; intros; rewrite ?H; reflexivity. }
  destruct E as (-> & -> & -> & ->). reflexivity.
Qed.
Lemma weights_louder rm ms p k j : Forall real_radio ms -> real_map rm ->
  alookup p (rp_weights (surveyed_louder j rm) (map (louder k) ms) true) = alookup p (rp_weights rm ms true).
Proof.
  intros Hm Hr. rewrite !rp_weights_real by (assumption || apply louder_real, Hm || apply surveyed_real). cbv zeta.
  rewrite commons_louder, map_length. destruct (Nat.ltb _ _); [reflexivity|]. do 2 f_equal.
  rewrite weight_more. apply point_weight_ext. intros i. apply share_louder.
Qed.
Lemma weights_louder1 rm ms p k : Forall real_radio ms -> real_map rm ->
  alookup p (rp_weights rm (map (louder k) ms) true) = alookup p (rp_weights rm ms true).
Proof.
  intros Hm Hr. rewrite !rp_weights_real by (assumption || apply louder_real, Hm). cbv zeta.
  rewrite commons_louder1, map_length. destruct (Nat.ltb _ _); [reflexivity|]. do 2 f_equal.
  rewrite weight_more. apply point_weight_ext. intros i. apply share_louder.
Qed.
Lemma filter_map' A B (f : A -> B) q l : filter q (map f l) = map f (filter (fun x => q (f x)) l).
Proof. induction l as [|x l IH]; [reflexivity|]. cbn. destruct (q (f x)); cbn; rewrite IH; reflexivity. Qed.
Lemma whitelisted_louder k ids ms : whitelisted ids (map (louder k) ms) = map (louder k) (whitelisted ids ms).
Proof. unfold whitelisted. apply filter_map'. Qed.
Lemma knn_louder {SO : Sorter} (s : settings RX) kt mpos l ts ms k : s_diff s = true -> Forall real_radio ms -> tables_real kt ->
  knn_position s kt mpos l ts (map (louder k) ms) = knn_position s kt mpos l ts ms.
Proof.
  intros Hd Hm Hk. apply knn_ext.
  - destruct ms; cbn; split; intros; (reflexivity || discriminate).
  - intros ids. rewrite whitelisted_louder, map_length. reflexivity.
  - intros ids rm id E. rewrite Hd, whitelisted_louder. apply weights_louder1; [apply whitelisted_real, Hm|exact (Hk _ _ E)].
Qed.

(** ** Another order *)
Lemma pairs_perm A (g : A * A -> R) : (forall a b, g (a, b) = g (b, a)) -> forall l l', Permutation l l' -> rsum (map g (pairs l)) = rsum (map g (pairs l')).
Proof.
  intros S. induction 1 as [|x l l' H IH|x y l|l l1 l2 _ IH1 _ IH2].
  - reflexivity.
  - cbn [pairs]. rewrite !map_app, !rsum_app, IH. f_equal. apply rsum_perm, Permutation_map, Permutation_map, H.
  - cbn [pairs map]. rewrite !map_app. cbn [map app]. rewrite !rsum_cons, !rsum_app, (S y x). lra.
  - congruence.
Qed.
Lemma share_perm ms ms' id : Permutation ms ms' -> NoDup (map (@r_id RX) ms) -> share ms id = share ms' id.
Proof.
  intros P N. assert (N' : NoDup (map (@r_id RX) ms')) by (eapply Permutation_NoDup; [apply Permutation_map, P|exact N]).
  destruct (in_dec string_dec id (map (@r_id RX) ms)) as [Hi|Hi].
  - apply in_map_iff in Hi. destruct Hi as (m & <- & Hm). rewrite !share_distinct; auto; [|eapply Permutation_in; eassumption].
    f_equal. apply rsum_perm, Permutation_map, P.
  - unfold share. destruct (find _ (rev ms)) as [m|] eqn:E.
    { apply find_some in E. destruct E as [E1 E2]. apply String.eqb_eq in E2. subst. destruct Hi. apply in_map, in_rev, E1. }
    destruct (find _ (rev ms')) as [m|] eqn:E'; [|reflexivity].
    apply find_some in E'. destruct E' as [E1 E2]. apply String.eqb_eq in E2. subst. destruct Hi. apply in_map.
    eapply Permutation_in; [symmetry; exact P|apply in_rev, E1].
Qed.
Lemma commons_perm rm ms ms' p : Permutation ms ms' -> Permutation (commons rm ms p) (commons rm ms' p).
Proof. intros P. unfold commons. apply Permutation_flat_map, P. Qed.
Lemma weight_perm diff w l l' : Permutation l l' -> point_weight_of diff w l = point_weight_of diff w l'.
Proof.
  intros P. unfold point_weight_of. rewrite (Permutation_length P). destruct diff.
  - assert (E1 : diff_total w l = diff_total w l') by exact (@pairs_perm _ _ (@cd_total_sym w) _ _ P).
    assert (E2 : diff_norm w l = diff_norm w l') by exact (@pairs_perm _ _ (@cd_norm_sym w) _ _ P). rewrite E1, E2. reflexivity.
  - assert (E1 : plain_total w l = plain_total w l') by apply rsum_perm, Permutation_map, P.
    assert (E2 : plain_norm w l = plain_norm w l') by apply rsum_perm, Permutation_map, P. rewrite E1, E2. reflexivity.
Qed.
Lemma weights_perm rm ms ms' diff p : Permutation ms ms' -> NoDup (map (@r_id RX) ms) -> Forall real_radio ms -> real_map rm ->
  alookup p (rp_weights rm ms diff) = alookup p (rp_weights rm ms' diff).
Proof.
  intros P N Hm Hr. assert (Hm' : Forall real_radio ms') by (eapply Permutation_Forall; eassumption).
  rewrite !rp_weights_real by assumption. cbv zeta. rewrite (Permutation_length (commons_perm rm p P)).
  destruct (Nat.ltb _ _); [reflexivity|]. do 2 f_equal. rewrite (weight_perm diff (share ms) (commons_perm rm p P)).
  apply point_weight_ext. intros i. apply share_perm; assumption.
Qed.
Lemma filter_perm A (q : A -> bool) l l' : Permutation l l' -> Permutation (filter q l) (filter q l').
Proof.
  induction 1 as [|x l l' _ IH|x y l|l l1 l2 _ IH1 _ IH2]; cbn.
  - constructor.
  - destruct (q x); [constructor; exact IH|exact IH].
  - destruct (q x), (q y); try constructor; apply Permutation_refl.
  - etransitivity; eassumption.
Qed.
Lemma filter_nodup A B (f : A -> B) (q : A -> bool) l : NoDup (map f l) -> NoDup (map f (filter q l)).
Proof.
  induction l as [|x l IH]; intros H; [exact H|]. inversion H as [|? ? H1 H2]; subst. cbn. destruct (q x); [|apply IH, H2].
  cbn. constructor; [|apply IH, H2]. intros Hi. apply H1. apply in_map_iff in Hi. destruct Hi as (y & <- & Hy). apply filter_In in Hy. apply in_map, Hy.
Qed.
Lemma knn_perm {SO : Sorter} (s : settings RX) kt mpos l ts ms ms' : Permutation ms ms' -> NoDup (map (@r_id RX) ms) ->
  Forall real_radio ms -> tables_real kt -> knn_position s kt mpos l ts ms = knn_position s kt mpos l ts ms'.
Proof.
  intros P N Hm Hk. apply knn_ext.
  - split; intros ->; [apply Permutation_nil, P|apply Permutation_nil; symmetry; exact P].
  - intros ids. apply Permutation_length, filter_perm, P.
  - intros ids rm id E. apply weights_perm; [apply filter_perm, P|apply filter_nodup, N|apply whitelisted_real, Hm|exact (Hk _ _ E)].
Qed.

(** ** The zone estimator *)
Lemma level_radio_louder k (l : level RX) ms : level_radio l (map (louder k) ms) = map (louder k) (level_radio l ms).
Proof. unfold level_radio. apply filter_map'. Qed.
Lemma max_louder k : forall ms m, Forall real_radio ms -> real_radio m ->
  max_elem_from (fun a b : radio RX => r_rssi a <! r_rssi b) (louder k m) (map (louder k) ms) =
  louder k (max_elem_from (fun a b : radio RX => r_rssi a <! r_rssi b) m ms).
Proof.
  induction ms as [|x ms IH]; intros m H Hm; [reflexivity|]. inversion H as [|? ? H1 H2]; subst. cbn [map max_elem_from].
  assert (E : (r_rssi (louder k m) <! r_rssi (louder k x)) = (r_rssi m <! r_rssi x)).
  { destruct H1 as [[a Ea] _]. destruct Hm as [[b Eb] _]. unfold louder. cbn [r_rssi]. rewrite Ea, Eb. cbn [rval]. rewrite !rx_ltb.
    unfold Rltb. destruct (Rlt_dec (b + k) (a + k)), (Rlt_dec b a); (reflexivity || exfalso; lra). }
  rewrite E. destruct (r_rssi m <! r_rssi x); apply IH; assumption.
Qed.
Lemma zone_louder (zt : list (string * (RX * RX))) l ts ms k st p : Forall real_radio ms ->
  zone_position zt l ts ms = Ok (st, p) -> exists d, zone_position zt l ts (map (louder k) ms) = Ok (st, pos_set_dev p d).
Proof.
  intros Hm H. unfold zone_position in *. destruct ms as [|m0 ms]; [injection H as <- <-; eexists; reflexivity|].
  change (map (louder k) (m0 :: ms)) with (louder k m0 :: map (louder k) ms) at 1. cbv iota. rewrite level_radio_louder.
  assert (Hl : Forall real_radio (level_radio l (m0 :: ms))).
  { unfold level_radio. apply Forall_forall. intros x Hx. apply filter_In in Hx. rewrite Forall_forall in Hm. apply Hm, Hx. }
  destruct (level_radio l (m0 :: ms)) as [|r rs]; [injection H as <- <-; eexists; reflexivity|].
  inversion Hl as [|? ? H1 H2]; subst. cbn [map]. rewrite max_louder by assumption.
  set (n := max_elem_from _ r rs) in *. cbn [louder r_id]. change (r_id (louder k n)) with (r_id n).
  destruct (mget (f0, f0) (l_id l) zt) as [A B].
  destruct (if contains_tx l (r_id n) then _ else _) as [q| | |]; try discriminate. cbn [bind] in *. apply Ok_inj, pair_equal_spec in H. destruct H as [<- <-].
  eexists. reflexivity.
Qed.
