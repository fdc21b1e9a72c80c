(** Proofs for the KNN weighting (C48-C51). *)
From Coq Require Import Reals Lra Lia List String Permutation Psatz ListDec.
From Verif Require Import Lib NumReal LibR Knn Spec_Knn Spec_Geo Pf_Geo.
Import ListNotations.
Set Implicit Arguments.
Local Open Scope R_scope.
Local Open Scope list_scope.

(** * transmitter weights *)
Lemma rpow_pos x y : 0 < x -> rpow (Some x) (Some y) = Some (Rpower x y).
Proof.
  intros Hx. unfold rpow. destruct (Reqb y 0) eqn:E.
  - apply Reqb_true in E. subst y. rewrite Rpower_O by exact Hx. reflexivity.
  - apply Rltb_true in Hx. rewrite Hx. reflexivity.
Qed.
Lemma rx_pow x y : 0 < x -> fpow (Some x : RX) (Some y) = Some (Rpower x y).
Proof. exact (@rpow_pos x y). Qed.
Lemma Rpower_gt0 x y : 0 < Rpower x y. Proof. unfold Rpower. apply exp_pos. Qed.

Lemma trust_pos m : 0 < trust m. Proof. apply Rpower_gt0. Qed.

Lemma trustworthiness_real (m : radio RX) : real_radio m -> trustworthiness m = (Some (trust m) : RX).
Proof.
  intros [[r Hr] [p Hp]]. unfold trustworthiness, trust, assumed_power. rewrite Hr, Hp. cbn [rval].
  rewrite rx_lit by lra. rewrite rx_ltb, !rx_ofZ, rx_mul.
  assert (E : (if Rltb p (1 / 100000) then (Some (IZR (-10)) : RX) else Some p)
              = Some (if Rlt_dec p (1 / 100000) then -10 else p)).
  { unfold Rltb. destruct (Rlt_dec p (1 / 100000)); reflexivity. }
  rewrite E. rewrite rx_sub, rx_div by lra. rewrite rx_pow by lra. rewrite rx_lit by lra.
  rewrite rx_pow by apply Rpower_gt0. rewrite rx_f1, rx_div.
  2:{ apply Rgt_not_eq, Rpower_gt0. }
  f_equal. rewrite Rpower_mult. unfold Rdiv at 1. rewrite Rmult_1_l, <- Rpower_Ropp. f_equal.
  destruct (Rlt_dec p (1 / 100000)); field.
Qed.

Definition last_of (ms : list (radio RX)) (id : string) : option (radio RX) :=
  find (fun m => String.eqb id (r_id m)) (rev ms).

Lemma tx_fold_lookup ms id :
  alookup id (fold_left (fun m (r : radio RX) => mset (r_id r) (trustworthiness r) m) ms []) =
  match last_of ms id with Some m => Some (trustworthiness m) | None => None end.
Proof.
  unfold last_of. induction ms as [|r t IH] using rev_ind; [reflexivity|].
  rewrite fold_left_app. cbn [fold_left]. rewrite rev_app_distr. cbn [rev app find].
  destruct (String.eqb_spec id (r_id r)) as [->|N].
  - apply alookup_mset_same.
  - rewrite alookup_mset_other by exact N. exact IH.
Qed.

Lemma tx_sum_real ms : Forall real_radio ms -> fsum trustworthiness ms = (Some (rsum (map trust ms)) : RX).
Proof.
  intros H. apply fsum_real. intros m Hm. apply trustworthiness_real.
  rewrite Forall_forall in H. apply H, Hm.
Qed.
Lemma tx_total_pos ms : ms <> [] -> 0 < rsum (map trust ms).
Proof.
  intros H. apply rsum_pos.
  - destruct ms; [congruence|discriminate].
  - intros x Hx. apply in_map_iff in Hx. destruct Hx as (m & <- & _). apply trust_pos.
Qed.

Lemma alookup_map V W (f : V -> W) (l : list (string * V)) k :
  alookup k (map (fun e => (fst e, f (snd e))) l) = match alookup k l with Some v => Some (f v) | None => None end.
Proof.
  induction l as [|[k1 v] t IH]; [reflexivity|]. cbn [map alookup fst snd].
  destruct (String.eqb k k1); [reflexivity|exact IH].
Qed.

Lemma last_of_in ms id m : last_of ms id = Some m -> In m ms /\ r_id m = id.
Proof.
  intros H. apply find_some in H. destruct H as [H1 H2]. apply in_rev in H1. apply String.eqb_eq in H2. auto.
Qed.
Lemma last_of_none ms id : last_of ms id = None -> ~ In id (map (@r_id RX) ms).
Proof.
  intros H Hi. apply in_map_iff in Hi. destruct Hi as (m & <- & Hm).
  apply find_none with (x := m) in H; [|rewrite <- in_rev; exact Hm]. rewrite String.eqb_refl in H. discriminate.
Qed.

Lemma tx_weights_lookup ms id : Forall real_radio ms ->
  alookup id (tx_weights ms) = if in_dec string_dec id (map (@r_id RX) ms) then Some (Some (share ms id)) else None.
Proof.
  intros H. unfold tx_weights, share. cbv zeta. rewrite tx_sum_real by exact H.
  rewrite (@alookup_map RX RX (fun v => v /! (Some (rsum (map trust ms)) : RX))).
  rewrite tx_fold_lookup. fold (last_of ms id).
  destruct (last_of ms id) as [m|] eqn:E.
  - destruct (last_of_in _ _ E) as [Hm <-]. rewrite Forall_forall in H.
    rewrite trustworthiness_real by (apply H, Hm). rewrite rx_div.
    2:{ apply Rgt_not_eq, tx_total_pos. intros ->; destruct Hm. }
    destruct (in_dec string_dec (r_id m) (map (@r_id RX) ms)) as [_|N]; [reflexivity|].
    exfalso. apply N, in_map, Hm.
  - apply last_of_none in E. destruct (in_dec string_dec id _); [contradiction|reflexivity].
Qed.

Lemma tx_keys_sorted ms : keys_sorted (tx_weights (F := RX) ms).
Proof.
  unfold tx_weights. cbv zeta. generalize (fsum trustworthiness ms : RX) as s. intros s.
  assert (K : forall l : list (radio RX), forall acc, keys_sorted acc ->
    keys_sorted (fold_left (fun m (r : radio RX) => mset (r_id r) (trustworthiness r) m) l acc)).
  { induction l as [|r t IH]; intros acc Ha; [exact Ha|]. cbn [fold_left]. apply IH, mset_sorted, Ha. }
  specialize (K ms [] (Sorted.SSorted_nil _)). revert K.
  generalize (fold_left (fun m (r : radio RX) => mset (r_id r) (trustworthiness r) m) ms []) as l.
  intros l. unfold keys_sorted. rewrite map_map. cbn [fst]. auto.
Qed.

Lemma share_pos ms id : In id (map (@r_id RX) ms) -> 0 < share ms id.
Proof.
  intros Hi. unfold share. fold (last_of ms id). destruct (last_of ms id) as [m|] eqn:E.
  - destruct (last_of_in _ _ E) as [Hm _]. apply Rdiv_lt_0_compat; [apply trust_pos|].
    apply tx_total_pos. intros ->; destruct Hm.
  - exfalso. eapply last_of_none; eauto.
Qed.
Lemma share_nonneg ms id : 0 <= share ms id.
Proof.
  destruct (in_dec string_dec id (map (@r_id RX) ms)) as [i|n].
  - left. apply share_pos, i.
  - unfold share. fold (last_of ms id). destruct (last_of ms id) as [m|] eqn:E; [|lra].
    destruct (last_of_in _ _ E) as [Hm <-]. exfalso. apply n, in_map, Hm.
Qed.

Lemma last_of_nodup ms m : NoDup (map (@r_id RX) ms) -> In m ms -> last_of ms (r_id m) = Some m.
Proof.
  intros Hn Hm. unfold last_of. rewrite in_rev in Hm.
  assert (Hn' : NoDup (map (@r_id RX) (rev ms))) by (rewrite map_rev; apply NoDup_rev, Hn).
  revert Hm Hn'. generalize (rev ms). intros l. induction l as [|x t IH]; intros Hm Hn'; [destruct Hm|].
  cbn [map] in Hn'. inversion Hn' as [|? ? Hx Ht]; subst. cbn [find].
  destruct Hm as [<-|Hm]; [rewrite String.eqb_refl; reflexivity|].
  destruct (String.eqb_spec (r_id m) (r_id x)) as [E|N]; [|auto].
  exfalso. apply Hx. rewrite <- E. apply in_map, Hm.
Qed.

Lemma share_distinct ms m : NoDup (map (@r_id RX) ms) -> In m ms ->
  share ms (r_id m) = trust m / rsum (map trust ms).
Proof. intros Hn Hm. unfold share. fold (last_of ms (r_id m)). rewrite last_of_nodup by assumption. reflexivity. Qed.

Lemma shares_sum ms : ms <> [] -> NoDup (map (@r_id RX) ms) -> rsum (map (fun m => share ms (r_id m)) ms) = 1.
Proof.
  intros Hne Hn.
  rewrite (map_ext_in _ (fun m => trust m / rsum (map trust ms))).
  2:{ intros m Hm. apply share_distinct; assumption. }
  rewrite <- (map_map trust (fun x => x / rsum (map trust ms))), rsum_div.
  unfold Rdiv. apply Rinv_r. apply Rgt_not_eq, tx_total_pos, Hne.
Qed.

(** with repeated transmitters part of the total is lost *)
Lemma filter_split_sum {A} (q : A -> bool) (f : A -> R) l :
  rsum (map f l) = rsum (map f (filter q l)) + rsum (map f (filter (fun x => negb (q x)) l)).
Proof.
  induction l as [|x t IH]; [cbn; rewrite rsum_nil; lra|]. cbn [map filter]. rewrite rsum_cons, IH.
  destruct (q x); cbn [negb map]; rewrite rsum_cons; lra.
Qed.
Lemma mset_sum k (v : R) l : keys_sorted l ->
  rsum (map snd (mset k v l)) = rsum (map snd l) + v - match alookup k l with Some x => x | None => 0 end.
Proof.
  induction l as [|[k1 v1] t IH]; intros Hs.
  - cbn. rewrite rsum_cons, rsum_nil. lra.
  - cbn [mset alookup]. destruct (String.eqb_spec k k1) as [->|N].
    + cbn [map snd]. rewrite !rsum_cons. lra.
    + destruct (String.ltb k k1) eqn:E.
      * cbn [map snd]. rewrite !rsum_cons.
        assert (Hk : alookup k t = None).
        { apply alookup_none. intros Hi. inversion Hs as [|? ? Ht Hf]; subst.
          rewrite Forall_forall in Hf. specialize (Hf _ Hi).
          assert (X := str_ltb_trans _ _ _ E Hf). rewrite str_ltb_irrefl in X. discriminate. }
        rewrite Hk. lra.
      * cbn [map snd]. rewrite !rsum_cons. rewrite IH; [lra|]. inversion Hs; assumption.
Qed.

Lemma find_app A (q : A -> bool) l1 l2 : find q (l1 ++ l2) = match find q l1 with Some x => Some x | None => find q l2 end.
Proof. induction l1 as [|x t IH]; [reflexivity|]. cbn [app find]. destruct (q x); [reflexivity|exact IH]. Qed.
Definition last_trust ms id := match last_of ms id with Some m => trust m | None => 0 end.
Lemma last_of_cons r t id : last_of (r :: t) id =
  match last_of t id with Some m => Some m | None => if String.eqb id (r_id r) then Some r else None end.
Proof. unfold last_of. cbn [rev]. rewrite find_app. cbn [find]. reflexivity. Qed.
Lemma last_of_some ms id : In id (map (@r_id RX) ms) -> exists m, last_of ms id = Some m.
Proof.
  intros H. destruct (last_of ms id) as [m|] eqn:E; [eauto|]. exfalso. eapply last_of_none; eauto.
Qed.
Lemma distinct_total ms :
  let S := rsum (map (last_trust ms) (nodup string_dec (map (@r_id RX) ms))) in
  let T := rsum (map trust ms) in
  S <= T /\ (NoDup (map (@r_id RX) ms) -> S = T) /\ (~ NoDup (map (@r_id RX) ms) -> S < T).
Proof.
  cbv zeta. induction ms as [|r t (IH1 & IH2 & IH3)].
  - cbn. split; [lra|]. split; [reflexivity|]. intros H; exfalso; apply H; constructor.
  - assert (K : forall id, In id (map (@r_id RX) t) -> last_trust (r :: t) id = last_trust t id).
    { intros id Hi. unfold last_trust. rewrite last_of_cons. destruct (last_of_some t id Hi) as (m & ->). reflexivity. }
    assert (Kt : map (last_trust (r :: t)) (nodup string_dec (map (@r_id RX) t)) =
                 map (last_trust t) (nodup string_dec (map (@r_id RX) t))).
    { apply map_ext_in. intros id Hi. apply K. apply nodup_In in Hi. exact Hi. }
    assert (Hp := trust_pos r).
    cbn [map nodup]. rewrite rsum_cons. destruct (in_dec string_dec (r_id r) (map (@r_id RX) t)) as [Hi|Hi].
    + rewrite Kt. split; [lra|]. split; [intros H; inversion H; contradiction|lra].
    + cbn [map]. rewrite rsum_cons, Kt.
      assert (Er : last_trust (r :: t) (r_id r) = trust r).
      { unfold last_trust. rewrite last_of_cons. destruct (last_of t (r_id r)) as [m|] eqn:E.
        - exfalso. apply last_of_in in E. destruct E as [Hm E]. apply Hi. rewrite <- E. apply in_map, Hm.
        - rewrite String.eqb_refl. reflexivity. }
      rewrite Er. split; [lra|]. split.
      * intros H. inversion H; subst. rewrite IH2 by assumption. lra.
      * intros H. assert (~ NoDup (map (@r_id RX) t)) by (intros H2; apply H; constructor; assumption).
        specialize (IH3 H0). lra.
Qed.
Lemma shares_distinct_sum ms : ms <> [] ->
  let S := rsum (map (share ms) (nodup string_dec (map (@r_id RX) ms))) in
  S <= 1 /\ (NoDup (map (@r_id RX) ms) <-> S = 1).
Proof.
  intros Hne. cbv zeta. set (T := rsum (map trust ms)).
  assert (HT : 0 < T) by (apply tx_total_pos, Hne).
  assert (E : rsum (map (share ms) (nodup string_dec (map (@r_id RX) ms))) =
              rsum (map (last_trust ms) (nodup string_dec (map (@r_id RX) ms))) / T).
  { rewrite <- rsum_div, map_map. f_equal. apply map_ext_in. intros id Hi. unfold share, last_trust.
    fold (last_of ms id). destruct (last_of ms id); [reflexivity|]. unfold Rdiv. lra. }
  rewrite E. destruct (distinct_total ms) as (H1 & H2 & H3). cbv zeta in *. fold T in H1, H2, H3.
  set (S := rsum (map (last_trust ms) _)) in *.
  assert (Hd : T / T = 1) by (unfold Rdiv; apply Rinv_r; lra).
  split.
  - rewrite <- Hd. unfold Rdiv. apply Rmult_le_compat_r; [left; apply Rinv_0_lt_compat, HT|exact H1].
  - split.
    + intros Hn. rewrite H2 by exact Hn. exact Hd.
    + intros Hs. destruct (ListDec.NoDup_dec string_dec (map (@r_id RX) ms)) as [Hn|Hn]; [exact Hn|].
      exfalso. specialize (H3 Hn). assert (S / T < T / T).
      { unfold Rdiv. apply Rmult_lt_compat_r; [apply Rinv_0_lt_compat, HT|exact H3]. }
      lra.
Qed.
Lemma trust_mono a b : assumed_power a = assumed_power b ->
  (rval (r_rssi a) < rval (r_rssi b) <-> trust a < trust b).
Proof.
  intros H. unfold trust. rewrite H. split; intros Hr.
  - apply Rpower_lt; lra.
  - destruct (Rlt_dec (rval (r_rssi a)) (rval (r_rssi b))) as [|n]; [assumption|].
    exfalso. apply Rnot_lt_le in n.
    assert (X : Rpower 10 (6 / 100 * (rval (r_rssi b) - assumed_power b)) <= Rpower 10 (6 / 100 * (rval (r_rssi a) - assumed_power b))).
    { apply Rle_Rpower; lra. }
    lra.
Qed.

(** * reference-point weights *)
Lemma tx_weights_get ms id : Forall real_radio ms -> mget f0 id (tx_weights ms) = (Some (share ms id) : RX).
Proof.
  intros H. unfold mget. rewrite tx_weights_lookup by exact H.
  destruct (in_dec string_dec id (map (@r_id RX) ms)) as [i|n]; [reflexivity|].
  unfold share. fold (last_of ms id). destruct (last_of ms id) as [m|] eqn:E; [|reflexivity].
  destruct (last_of_in _ _ E) as [Hm <-]. exfalso. apply n, in_map, Hm.
Qed.

Definition push_fold {V} (l : list (string * V)) (acc : list (string * list V)) :=
  fold_left (fun acc e => mset (fst e) (mget [] (fst e) acc ++ [snd e]) acc) l acc.
Lemma push_fold_sorted V (l : list (string * V)) acc : keys_sorted acc -> keys_sorted (push_fold l acc).
Proof.
  revert acc; induction l as [|e t IH]; intros acc Ha; [exact Ha|]. unfold push_fold. cbn [fold_left].
  apply IH, mset_sorted, Ha.
Qed.
Definition those {V} (p : string) (l : list (string * V)) : list V := map snd (filter (fun e => String.eqb p (fst e)) l).
Definition nonempty {V} (l : list V) : option (list V) := match l with [] => None | _ => Some l end.
Lemma mget_eq V (d : V) k l o : alookup k l = o -> mget d k l = match o with Some v => v | None => d end.
Proof. intros <-. reflexivity. Qed.
Lemma push_fold_lookup V (l : list (string * V)) p : alookup p (push_fold l []) = nonempty (those p l).
Proof.
  unfold push_fold, those. induction l as [|e t IH] using rev_ind; [reflexivity|].
  rewrite fold_left_app, filter_app, map_app. cbn [fold_left filter].
  destruct (String.eqb_spec p (fst e)) as [->|N].
  - rewrite alookup_mset_same. rewrite (mget_eq [] _ _ IH). cbn [map].
    destruct (map snd (filter (fun e0 => String.eqb (fst e) (fst e0)) t)) as [|v vs]; reflexivity.
  - rewrite alookup_mset_other by exact N. cbn [map]. rewrite app_nil_r. exact IH.
Qed.
Lemma fold_left_flat_map A B C (f : C -> B -> C) (g : A -> list B) l : forall acc,
  fold_left (fun a x => fold_left f (g x) a) l acc = fold_left f (flat_map g l) acc.
Proof.
  induction l as [|x t IH]; intros acc; [reflexivity|]. cbn [fold_left flat_map]. rewrite fold_left_app. apply IH.
Qed.
Lemma fold_left_map A B C (f : C -> B -> C) (g : A -> B) l : forall acc,
  fold_left f (map g l) acc = fold_left (fun a x => f a (g x)) l acc.
Proof. induction l as [|x t IH]; intros acc; [reflexivity|]. cbn [map fold_left]. apply IH. Qed.

Lemma rps_flat (rm : rmap RX) ms : rps_statistics rm ms =
  push_fold (flat_map (fun r => map (fun e => (fst e, mkSigst (r_id r) (r_rssi r) (ss_mean (snd e)))) (equal_range rm (r_id r))) ms) [].
Proof.
  unfold rps_statistics, push_fold. rewrite <- fold_left_flat_map.
  generalize (@nil (string * list (sigst RX))) as acc. induction ms as [|r t IH]; intros acc; [reflexivity|].
  cbn [fold_left]. rewrite fold_left_map. cbn [fst snd]. apply IH.
Qed.

Definition conv (c : common) : sigst RX := mkSigst (c_tx c) (Some (c_meas c) : RX) (Some (c_db c) : RX).
Lemma those_commons (rm : rmap RX) ms p : Forall real_radio ms -> real_map rm ->
  those p (flat_map (fun r => map (fun e => (fst e, mkSigst (r_id r) (r_rssi r) (ss_mean (snd e)))) (equal_range rm (r_id r))) ms)
  = map conv (commons rm ms p).
Proof.
  intros Hm Hr. unfold those, commons. induction Hm as [|r t Hrr Ht IH]; [reflexivity|].
  cbn [flat_map]. rewrite filter_app, !map_app, IH. f_equal. clear IH Ht.
  unfold equal_range. induction Hr as [|e rm' He Hr' IH]; [reflexivity|].
  cbn [filter flat_map]. destruct (String.eqb (fst e) (r_id r)) eqn:E1; cbn [andb].
  - cbn [map filter fst snd]. rewrite (String.eqb_sym p). destruct (String.eqb (fst (snd e)) p) eqn:E2.
    + cbn [map snd app]. rewrite IH. f_equal. unfold conv. cbn [c_tx c_meas c_db].
      rewrite <- (rval_some He), <- (rval_some (proj1 Hrr)). reflexivity.
    + cbn [app]. exact IH.
  - cbn [app]. exact IH.
Qed.
Lemma stats_lookup (rm : rmap RX) ms p : Forall real_radio ms -> real_map rm ->
  alookup p (rps_statistics rm ms) = nonempty (map conv (commons rm ms p)).
Proof. intros Hm Hr. rewrite rps_flat, push_fold_lookup, those_commons by assumption. reflexivity. Qed.

Lemma alookup_flat V W (c : V -> bool) (g : V -> W) (l : list (string * V)) p : NoDup (map fst l) ->
  alookup p (flat_map (fun e => if c (snd e) then [] else [(fst e, g (snd e))]) l) =
  match alookup p l with Some v => if c v then None else Some (g v) | None => None end.
Proof.
  induction l as [|[k v] t IH]; intros Hn; [reflexivity|]. cbn [map fst] in Hn. inversion Hn as [|? ? Hk Ht]; subst.
  cbn [flat_map fst snd alookup]. destruct (String.eqb_spec p k) as [->|N].
  - destruct (c v); cbn [app alookup].
    + rewrite IH by exact Ht. apply alookup_none in Hk. rewrite Hk. reflexivity.
    + rewrite String.eqb_refl. reflexivity.
  - destruct (c v); cbn [app alookup]; [apply IH, Ht|].
    destruct (String.eqb_spec p k); [contradiction|]. apply IH, Ht.
Qed.

(** ** sums of contributions *)
Fixpoint dpairs (before l : list common) : list (common * common) :=
  match l with [] => [] | s :: t => map (fun b => (s, b)) before ++ dpairs (before ++ [s]) t end.
Definition cross (l before : list common) : list (common * common) := flat_map (fun s => map (fun b => (s, b)) before) l.
Lemma cross_sum g l b s : rsum (map g (cross l (b ++ [s]))) = rsum (map g (cross l b)) + rsum (map (fun y => g (y, s)) l).
Proof.
  unfold cross. induction l as [|x t IH]; [cbn; rewrite rsum_nil; lra|]. cbn [flat_map map].
  rewrite !map_app, !rsum_app, IH. cbn [map]. rewrite !rsum_cons, rsum_nil. lra.
Qed.
Lemma dpairs_sum (g : common * common -> R) : (forall a b, g (a, b) = g (b, a)) -> forall l before,
  rsum (map g (dpairs before l)) = rsum (map g (cross l before)) + rsum (map g (pairs l)).
Proof.
  intros Hg. induction l as [|s t IH]; intros b; [cbn; rewrite !rsum_nil; lra|]. cbn [dpairs pairs cross flat_map].
  rewrite !map_app, !rsum_app, IH. rewrite cross_sum. fold (cross t b).
  rewrite (map_map _ g). rewrite (map_ext (fun y => g (y, s)) (fun y => g (s, y))) by (intros; apply Hg). 
  rewrite (map_map (fun y => (s, y)) g). lra.
Qed.

Definition cd_norm (w : string -> R) (cd : common * common) : R := w (c_tx (fst cd)) * w (c_tx (snd cd)).
Definition cd_total (w : string -> R) (cd : common * common) : R :=
  Rmax (pair_mismatch (fst cd) (snd cd) * cd_norm w cd) (1 / 1000000).
Lemma cd_norm_sym w a b : cd_norm w (a, b) = cd_norm w (b, a).
Proof. unfold cd_norm. cbn [fst snd]. lra. Qed.
Lemma cd_total_sym w a b : cd_total w (a, b) = cd_total w (b, a).
Proof.
  unfold cd_total. rewrite cd_norm_sym. unfold pair_mismatch. cbn [fst snd].
  rewrite <- Rabs_Ropp. do 3 f_equal. lra.
Qed.
Lemma min_rp_real : min_rp_weight = (Some (1 / 1000000) : RX).
Proof. unfold min_rp_weight. apply rx_lit. lra. Qed.
Lemma min_eps_real : min_weight_eps = (Some (1 / 100000000) : RX).
Proof. unfold min_weight_eps. apply rx_lit. lra. Qed.

Lemma pair_contrib_real tw w a b : (forall id, mget f0 id tw = (Some (w id) : RX)) ->
  pair_contrib tw (conv a) (conv b) = ((Some (cd_norm w (a, b)) : RX), (Some (cd_total w (a, b)) : RX)).
Proof.
  intros Hw. unfold pair_contrib, conv. cbn [sg_tx sg_meas sg_db]. rewrite !Hw, min_rp_real, !rx_sub, rx_abs, !rx_mul, rx_fmax.
  reflexivity.
Qed.
Lemma single_contrib_real tw w a : (forall id, mget f0 id tw = (Some (w id) : RX)) ->
  single_contrib tw (conv a) = ((Some (w (c_tx a)) : RX), (Some (Rmax (Rabs (c_db a + c_meas a) * w (c_tx a)) (1 / 1000000)) : RX)).
Proof.
  intros Hw. unfold single_contrib, conv. cbn [sg_tx sg_meas sg_db]. rewrite !Hw, min_rp_real, !rx_add, rx_abs, !rx_mul, rx_fmax.
  reflexivity.
Qed.
Lemma diff_contribs_real tw w : (forall id, mget f0 id tw = (Some (w id) : RX)) -> forall l before,
  diff_contribs tw (map conv before) (map conv l) =
  map (fun cd => ((Some (cd_norm w cd) : RX), (Some (cd_total w cd) : RX))) (dpairs before l).
Proof.
  intros Hw. induction l as [|s t IH]; intros b; [reflexivity|]. cbn [map diff_contribs dpairs].
  rewrite map_app, !map_map. f_equal.
  - apply map_ext. intros c. apply pair_contrib_real, Hw.
  - rewrite <- IH, map_app. reflexivity.
Qed.

Lemma contribs_real diff tw w l : (forall id, mget f0 id tw = (Some (w id) : RX)) ->
  fsum fst (contribs diff tw (map conv l)) = (Some (if diff then diff_norm w l else plain_norm w l) : RX) /\
  fsum snd (contribs diff tw (map conv l)) = (Some (if diff then diff_total w l else plain_total w l) : RX).
Proof.
  intros Hw. destruct diff; cbn [contribs].
  - change (@nil (sigst RX)) with (map conv []). rewrite (diff_contribs_real _ _ Hw).
    split.
    + rewrite (@fsum_real _ _ (fun e => rval (fst e))).
      2:{ intros x Hx. apply in_map_iff in Hx. destruct Hx as (cd & <- & _). reflexivity. }
      rewrite map_map. cbn [fst rval]. f_equal. rewrite (@dpairs_sum (cd_norm w)) by (intros; apply cd_norm_sym).
      assert (E : rsum (map (cd_norm w) (cross l [])) = 0).
      { unfold cross. induction l as [|x t IH]; [reflexivity|exact IH]. }
      rewrite E. unfold diff_norm. fold (cd_norm w). apply Rplus_0_l.
    + rewrite (@fsum_real _ _ (fun e => rval (snd e))).
      2:{ intros x Hx. apply in_map_iff in Hx. destruct Hx as (cd & <- & _). reflexivity. }
      rewrite map_map. cbn [snd rval]. f_equal. rewrite (@dpairs_sum (cd_total w)) by (intros; apply cd_total_sym).
      assert (E : rsum (map (cd_total w) (cross l [])) = 0).
      { unfold cross. induction l as [|x t IH]; [reflexivity|exact IH]. }
      rewrite E. unfold diff_total. fold (cd_norm w). apply Rplus_0_l.
  - rewrite map_map. rewrite (map_ext _ _ (fun c => single_contrib_real tw w c Hw)). split.
    + rewrite (@fsum_real _ _ (fun e => rval (fst e))).
      2:{ intros x Hx. apply in_map_iff in Hx. destruct Hx as (cd & <- & _). reflexivity. }
      rewrite map_map. reflexivity.
    + rewrite (@fsum_real _ _ (fun e => rval (snd e))).
      2:{ intros x Hx. apply in_map_iff in Hx. destruct Hx as (cd & <- & _). reflexivity. }
      rewrite map_map. reflexivity.
Qed.

Lemma pairs_length_pos A (l : list A) : (2 <= List.length l)%nat -> pairs l <> [].
Proof. destruct l as [|x [|y t]]; cbn; intros H; try lia. discriminate. Qed.
Lemma rsum_lower l lo : l <> [] -> 0 <= lo -> (forall x, In x l -> lo <= x) -> lo <= rsum l.
Proof.
  intros Hn Hl H. destruct l as [|x t]; [congruence|]. rewrite rsum_cons.
  assert (Hx := H x (or_introl eq_refl)).
  assert (Ht : 0 <= rsum t) by (apply rsum_nonneg; intros y Hy; apply Rle_trans with lo; [exact Hl|apply H; right; exact Hy]). lra.
Qed.
Lemma total_lower diff w l : (3 <= List.length l)%nat -> 1 / 1000000 <= (if diff : bool then diff_total w l else plain_total w l).
Proof.
  intros Hl. destruct diff.
  - unfold diff_total. apply rsum_lower.
    + intros E. apply map_eq_nil in E. apply (pairs_length_pos l); [lia|exact E].
    + lra.
    + intros x Hx. apply in_map_iff in Hx. destruct Hx as (cd & <- & _). apply Rmax_r.
  - unfold plain_total. apply rsum_lower.
    + intros E. apply map_eq_nil in E. subst l. cbn in Hl. lia.
    + lra.
    + intros x Hx. apply in_map_iff in Hx. destruct Hx as (cd & <- & _). apply Rmax_r.
Qed.

Lemma finish_real W N n : 1 / 1000000 <= W -> (0 < n)%nat ->
  let pen := if Rlt_dec (1 / 100000000) N then W / N else W in
  finish_weight (Some W : RX) (Some N : RX) n = (Some (INR n / sqrt pen) : RX) /\ 0 < INR n / sqrt pen.
Proof.
  intros HW Hn. cbv zeta. unfold finish_weight. rewrite min_eps_real, rx_ltb.
  assert (E : Rltb (1 / 100000000) W = true) by (apply Rltb_true; lra). rewrite E. cbv zeta.
  rewrite rx_ltb. unfold Rltb.
  assert (Hi : 0 < INR n) by (apply lt_0_INR; exact Hn).
  destruct (Rlt_dec (1 / 100000000) N) as [HN|HN].
  - rewrite rx_div by lra.
    assert (Hp : 0 < W / N) by (apply Rdiv_lt_0_compat; lra).
    assert (Hs : 0 < sqrt (W / N)) by (apply sqrt_lt_R0; exact Hp).
    rewrite rx_sqrt by lra. destruct (Nat.ltb_spec 0 n) as [_|X]; [|lia].
    rewrite fofnat_real, rx_div by lra. rewrite rx_f1, rx_div.
    2:{ apply Rgt_not_eq, Rdiv_lt_0_compat; assumption. }
    split; [f_equal; field; lra|apply Rdiv_lt_0_compat; assumption].
  - assert (Hs : 0 < sqrt W) by (apply sqrt_lt_R0; lra).
    rewrite rx_sqrt by lra. destruct (Nat.ltb_spec 0 n) as [_|X]; [|lia].
    rewrite fofnat_real, rx_div by lra. rewrite rx_f1, rx_div.
    2:{ apply Rgt_not_eq, Rdiv_lt_0_compat; assumption. }
    split; [f_equal; field; lra|apply Rdiv_lt_0_compat; assumption].
Qed.

Lemma point_weight_pos diff w l : (3 <= List.length l)%nat -> 0 < point_weight_of diff w l.
Proof.
  intros Hl. unfold point_weight_of. cbv zeta.
  destruct (@finish_real (if diff then diff_total w l else plain_total w l) (if diff then diff_norm w l else plain_norm w l) (List.length l)) as [_ H].
  - apply total_lower, Hl.
  - lia.
  - exact H.
Qed.

Theorem rp_weights_real (rm : rmap RX) ms diff p : Forall real_radio ms -> real_map rm ->
  alookup p (rp_weights rm ms diff) =
  (let l := commons rm ms p in
   if Nat.ltb (List.length l) 3 then None else Some (Some (point_weight_of diff (share ms) l))).
Proof.
  intros Hm Hr. unfold rp_weights. cbv zeta.
  rewrite (@alookup_flat (list (sigst RX)) RX (fun l => Nat.ltb (List.length l) 3)
    (fun l => finish_weight (fsum snd (contribs diff (tx_weights ms) l)) (fsum fst (contribs diff (tx_weights ms) l)) (List.length l))).
  2:{ apply keys_sorted_nodup. rewrite rps_flat. apply push_fold_sorted. constructor. }
  rewrite stats_lookup by assumption. unfold nonempty.
  destruct (commons rm ms p) as [|c cs] eqn:E; [reflexivity|].
  cbn [map]. change (conv c :: map conv cs) with (map conv (c :: cs)). rewrite map_length.
  destruct (Nat.ltb_spec (List.length (c :: cs)) 3) as [L|L]; [reflexivity|].
  destruct (@contribs_real diff (tx_weights ms) (share ms) (c :: cs) (fun id => tx_weights_get id Hm)) as [-> ->].
  destruct (@finish_real (if diff then diff_total (share ms) (c :: cs) else plain_total (share ms) (c :: cs))
     (if diff then diff_norm (share ms) (c :: cs) else plain_norm (share ms) (c :: cs)) (List.length (c :: cs))) as [-> _].
  - apply total_lower, L.
  - lia.
  - reflexivity.
Qed.
Lemma rp_weights_nodup (rm : rmap RX) ms diff : NoDup (map fst (rp_weights rm ms diff)).
Proof.
  assert (K : NoDup (map fst (rps_statistics rm ms))).
  { apply keys_sorted_nodup. rewrite rps_flat. apply push_fold_sorted. constructor. }
  unfold rp_weights. cbv zeta. revert K. generalize (rps_statistics rm ms) as st. intros st.
  induction st as [|e t IH]; intros Hn; [constructor|]. cbn [map] in Hn. inversion Hn as [|? ? He Ht]; subst.
  cbn [flat_map]. destruct (Nat.ltb _ 3); cbn [app map fst]; [apply IH, Ht|].
  constructor; [|apply IH, Ht]. intros Hi. apply He.
  apply in_map_iff in Hi. destruct Hi as (x & <- & Hx). apply in_flat_map in Hx. destruct Hx as (y & Hy & Hx).
  destruct (Nat.ltb _ 3); [destruct Hx|]. destruct Hx as [<-|[]]. cbn [fst]. apply in_map, Hy.
Qed.

Lemma pairs_map A B (f : A -> B) l : pairs (map f l) = map (fun ab => (f (fst ab), f (snd ab))) (pairs l).
Proof.
  induction l as [|x t IH]; [reflexivity|]. cbn [map pairs]. rewrite map_app, IH, !map_map. reflexivity.
Qed.
Lemma pairs_in A (l : list A) a b : In (a, b) (pairs l) -> In a l /\ In b l.
Proof.
  induction l as [|x t IH]; [intros []|]. cbn [pairs]. intros H. apply in_app_or in H. destruct H as [H|H].
  - apply in_map_iff in H. destruct H as (y & E & Hy). injection E as -> ->. split; [left; reflexivity|right; exact Hy].
  - destruct (IH H) as [Ha Hb]. split; right; assumption.
Qed.
Lemma diff_norm_tx w l : diff_norm w l = rsum (map (fun ab => w (fst ab) * w (snd ab)) (pairs (map c_tx l))).
Proof. unfold diff_norm. rewrite pairs_map, map_map. reflexivity. Qed.
Lemma rsum_const_le A (f : A -> R) l k : (forall x, In x l -> k <= f x) -> INR (List.length l) * k <= rsum (map f l).
Proof.
  induction l as [|x t IH]; intros H; [cbn; rewrite rsum_nil; lra|]. cbn [map List.length]. rewrite rsum_cons, S_INR.
  assert (Hx := H x (or_introl eq_refl)). assert (Ht := IH (fun y Hy => H y (or_intror Hy))). lra.
Qed.
Lemma rsum_const A (f : A -> R) l k : (forall x, In x l -> f x = k) -> rsum (map f l) = INR (List.length l) * k.
Proof.
  induction l as [|x t IH]; intros H; [cbn; rewrite rsum_nil; lra|]. cbn [map List.length]. rewrite rsum_cons, S_INR.
  rewrite (H x (or_introl eq_refl)), (IH (fun y Hy => H y (or_intror Hy))). lra.
Qed.
(** difference mode ignores a constant offset and prefers an exact match *)
Lemma diff_exact_total w l k : (forall c, In c l -> c_db c = c_meas c + k) ->
  diff_total w l = INR (List.length (pairs l)) * (1 / 1000000).
Proof.
  intros H. unfold diff_total. apply rsum_const. intros [a b] Hx. apply pairs_in in Hx. destruct Hx as [Ha Hb].
  cbn [fst snd]. unfold pair_mismatch. rewrite (H a Ha), (H b Hb).
  replace (c_meas a + k - (c_meas b + k) - (c_meas a - c_meas b)) with 0 by lra. rewrite Rabs_R0, Rmult_0_l.
  apply Rmax_right. lra.
Qed.
Lemma diff_best w l l' k : (3 <= List.length l)%nat -> map c_tx l = map c_tx l' -> (forall c, In c l' -> c_db c = c_meas c + k) ->
  point_weight_of true w l <= point_weight_of true w l'.
Proof.
  intros Hl Ht Hk.
  assert (L : List.length l = List.length l') by (rewrite <- (map_length c_tx l), Ht, map_length; reflexivity).
  assert (T' := diff_exact_total w l' Hk).
  assert (Lp : List.length (pairs l) = List.length (pairs l')).
  { rewrite <- (map_length (fun ab => (c_tx (fst ab), c_tx (snd ab))) (pairs l)), <- pairs_map, Ht, pairs_map, map_length. reflexivity. }
  assert (T : diff_total w l' <= diff_total w l).
  { rewrite T', <- Lp. unfold diff_total. apply rsum_const_le. intros; apply Rmax_r. }
  assert (N : diff_norm w l = diff_norm w l') by (rewrite !diff_norm_tx, Ht; reflexivity).
  assert (P := total_lower true w l Hl). assert (P' := total_lower true w l'). cbv iota in P, P'.
  assert (P2 : 1 / 1000000 <= diff_total w l') by (apply P'; lia).
  unfold point_weight_of. cbv zeta. rewrite L, N.
  assert (Hn : 0 < INR (List.length l')) by (apply lt_0_INR; lia).
  assert (K : forall a b, 0 < a -> a <= b -> INR (List.length l') / sqrt b <= INR (List.length l') / sqrt a).
  { intros a b Ha Hab. assert (0 < sqrt a) by (apply sqrt_lt_R0; lra). assert (sqrt a <= sqrt b) by (apply sqrt_le_1; lra).
    unfold Rdiv. apply Rmult_le_compat_l; [lra|]. apply Rinv_le_contravar; assumption. }
  destruct (Rlt_dec (1 / 100000000) (diff_norm w l')) as [H|H].
  - apply K.
    + apply Rdiv_lt_0_compat; lra.
    + unfold Rdiv. apply Rmult_le_compat_r; [left; apply Rinv_0_lt_compat; lra|exact T].
  - apply K; lra.
Qed.

(** plain mode adds the strengths: a stored fingerprint equal to the
    measurement can lose against a different one *)
Definition pl_m (id : string) : radio RX := mkRadio BEACON id (Some (-60) : RX) (Some 0 : RX) (Some 1 : RX) (Some 0 : RX).
Definition pl_ms : list (radio RX) := [pl_m "a"; pl_m "b"; pl_m "c"].
Definition pl_e (tx p : string) (v : R) : string * (string * sigstat RX) := (tx, (p, mkSS TBEACON (Some v : RX) (Some 1 : RX) 5)).
Definition pl_rm : rmap RX :=
  [pl_e "a" "p" (-60); pl_e "b" "p" (-60); pl_e "c" "p" (-60); pl_e "a" "q" (-30); pl_e "b" "q" (-30); pl_e "c" "q" (-30)].
Lemma pl_real : Forall real_radio pl_ms /\ real_map pl_rm.
Proof.
  split; repeat constructor; cbn; eexists; reflexivity.
Qed.
Lemma pl_share id : In id ["a"; "b"; "c"]%string -> share pl_ms id = 1 / 3.
Proof.
  intros Hi.
  assert (T : forall i, trust (pl_m i) = trust (pl_m "a")) by reflexivity.
  assert (Hp := trust_pos (pl_m "a")).
  unfold share, pl_ms. cbn [rev app find pl_m r_id]. cbn [map]. rewrite (T "b"%string), (T "c"%string), !rsum_cons, rsum_nil.
  destruct Hi as [<-|[<-|[<-|[]]]]; cbn [String.eqb Ascii.eqb Bool.eqb];
    change (mkRadio BEACON _ _ _ _ _) with (pl_m "a"); rewrite ?(T "b"%string), ?(T "c"%string); field; lra.
Qed.
Lemma pl_weight p v : commons pl_rm pl_ms p = [mkCommon "a" (-60) v; mkCommon "b" (-60) v; mkCommon "c" (-60) v] -> v < 0 ->
  alookup p (rp_weights pl_rm pl_ms false) = Some (Some (3 / sqrt (60 - v)) : RX).
Proof.
  intros E Hv. destruct pl_real as [R1 R2]. rewrite rp_weights_real by assumption. cbv zeta. rewrite E. cbn [List.length Nat.ltb Nat.leb].
  do 2 f_equal. unfold point_weight_of, plain_total, plain_norm. cbn [map c_tx c_db c_meas List.length].
  rewrite !pl_share by (cbn; auto). rewrite !rsum_cons, !rsum_nil.
  rewrite Rmax_left by (rewrite Rabs_left by lra; lra).
  destruct (Rlt_dec (1 / 100000000) (1 / 3 + (1 / 3 + (1 / 3 + 0)))) as [H|H]; [|exfalso; apply H; lra].
  rewrite Rabs_left by lra. replace (INR 3) with 3 by (cbn; lra). match goal with |- context [sqrt ?a] => replace a with (60 - v) by field end. reflexivity.
Qed.

(** * position in the heaviest triangle *)
Lemma max_elem_first A (lt : A -> A -> bool) (f : A -> R) : (forall a b, lt a b = Rltb (f a) (f b)) -> forall l b,
  exists l1 l2, b :: l = l1 ++ max_elem_from lt b l :: l2 /\
    (forall u, In u l1 -> f u < f (max_elem_from lt b l)) /\ (forall u, In u l2 -> f u <= f (max_elem_from lt b l)).
Proof.
  intros Hlt. induction l as [|x t IH]; intros b.
  - exists [], []. cbn. split; [reflexivity|]. split; intros u [].
  - cbn [max_elem_from]. rewrite Hlt. destruct (Rltb (f b) (f x)) eqn:E.
    + apply Rltb_true in E. destruct (IH x) as (l1 & l2 & E1 & H1 & H2).
      exists (b :: l1), l2. split; [cbn [app]; f_equal; exact E1|]. split; [|exact H2].
      assert (Hx : f x <= f (max_elem_from lt x t)).
      { destruct l1 as [|y t1]; cbn [app] in E1; injection E1 as E1 E2; [rewrite E1 at 1; lra|].
        subst y. left. apply H1. left; reflexivity. }
      intros u [<-|Hu]; [lra|apply H1, Hu].
    + apply Rltb_false in E. destruct (IH b) as (l1 & l2 & E1 & H1 & H2).
      destruct l1 as [|y t1]; cbn [app] in E1; injection E1 as E1 E2.
      * exists [], (x :: l2). rewrite <- E1 in *. split; [cbn [app]; rewrite <- E2; reflexivity|].
        split; [intros u []|]. intros u [<-|Hu]; [exact E|apply H2, Hu].
      * subst y. assert (Hb := H1 b (or_introl eq_refl)).
        exists (b :: x :: t1), l2. split; [cbn [app]; rewrite <- E2; reflexivity|]. split; [|exact H2].
        intros u [<-|[<-|Hu]]; [exact Hb|lra|apply H1; right; exact Hu].
Qed.

Lemma find_alookup V (l : list (string * V)) k :
  alookup k l = match find (fun e => String.eqb k (fst e)) l with Some e => Some (snd e) | None => None end.
Proof. induction l as [|[k1 v] t IH]; [reflexivity|]. cbn [alookup find fst]. destruct (String.eqb k k1); [reflexivity|exact IH]. Qed.
Lemma wt_get w id : real_weights w -> mget f0 id w = (Some (wt w id) : RX) /\ 0 <= wt w id.
Proof.
  intros H. unfold mget, wt. rewrite find_alookup. destruct (find _ w) as [e|] eqn:E.
  - apply find_some in E. destruct E as [Hi _]. unfold real_weights in H. rewrite Forall_forall in H.
    destruct (H e Hi) as (x & Hx & Hp). destruct e as [k v]. cbn [snd] in *. subst v. cbn [rval]. split; [reflexivity|exact Hp].
  - split; [reflexivity|lra].
Qed.
Lemma triangle_weight_real w t : real_weights w -> triangle_weight w t = (Some (tri_total w t) : RX).
Proof.
  intros H. unfold triangle_weight, tri_total.
  rewrite (proj1 (wt_get (tr1 t) H)), (proj1 (wt_get (tr2 t) H)), (proj1 (wt_get (tr3 t) H)), !rx_add. reflexivity.
Qed.

Lemma named_rp (rps : list (refpoint RX)) id :
  match point_named rps id with
  | Some q => has_rp (mk_radiomap rps) id = true /\ exists r, get_rp (mk_radiomap rps) id = Ok r /\ rp_pt r = q
  | None => has_rp (mk_radiomap rps) id = false
  end.
Proof.
  unfold point_named. destruct (@refpoint_exact RX rps id) as [(r & Hf & H1 & H2)|(Hn & H1 & H2)].
  - assert (E : find (fun r0 => String.eqb id (rp_id r0)) rps = Some r).
    { destruct Hf as (l1 & l2 & -> & Hr & Hl). rewrite find_app.
      assert (X : find (fun r0 => String.eqb id (rp_id r0)) l1 = None).
      { destruct (find _ l1) as [y|] eqn:E; [|reflexivity]. apply find_some in E. destruct E as [Hy E].
        apply String.eqb_eq in E. exfalso. apply (proj1 (Forall_forall _ _) Hl y Hy). symmetry; exact E. }
      rewrite X. cbn [find]. rewrite Hr, String.eqb_refl. reflexivity. }
    rewrite E. split; [exact H1|]. exists r. auto.
  - assert (E : find (fun r0 => String.eqb id (rp_id r0)) rps = None).
    { destruct (find _ rps) as [y|] eqn:E; [|reflexivity]. apply find_some in E. destruct E as [Hy E].
      apply String.eqb_eq in E. exfalso. apply (Hn y Hy). symmetry; exact E. }
    rewrite E. exact H1.
Qed.

Lemma feps_real : (feps : RX) = Some (/ IZR (2 ^ 52)). Proof. reflexivity. Qed.

Theorem triangle_position (ts : list tri) (rps : list (refpoint RX)) w : ts <> [] -> real_weights w ->
  exists t, heaviest w ts t /\
  ((tri_total w t < / IZR (2 ^ 52) \/ point_named rps (tr1 t) = None \/ point_named rps (tr2 t) = None \/ point_named rps (tr3 t) = None) ->
     position_in_triangle ts (mk_radiomap rps) w = Ok (mkXY (Some 0 : RX) (Some 0 : RX))) /\
  (/ IZR (2 ^ 52) <= tri_total w t -> forall x1 y1 x2 y2 x3 y3,
     point_named rps (tr1 t) = Some (mkXY (Some x1 : RX) (Some y1 : RX)) ->
     point_named rps (tr2 t) = Some (mkXY (Some x2 : RX) (Some y2 : RX)) ->
     point_named rps (tr3 t) = Some (mkXY (Some x3 : RX) (Some y3 : RX)) ->
     exists a b c, 0 <= a /\ 0 <= b /\ 0 <= c /\ a + b + c = 1 /\
       a * tri_total w t = wt w (tr1 t) /\ b * tri_total w t = wt w (tr2 t) /\ c * tri_total w t = wt w (tr3 t) /\
       position_in_triangle ts (mk_radiomap rps) w =
         Ok (mkXY (Some (a * x1 + b * x2 + c * x3) : RX) (Some (a * y1 + b * y2 + c * y3) : RX))).
Proof.
  intros Hne Hw. destruct ts as [|t0 rest]; [congruence|].
  unfold position_in_triangle. cbv zeta. set (t := max_elem_from _ t0 rest).
  exists t. split; [|split].
  - unfold heaviest. apply (@max_elem_first _ _ (tri_total w)). intros a b.
    rewrite !triangle_weight_real by exact Hw. apply rx_ltb.
  - intros H. rewrite (proj1 (wt_get (tr1 t) Hw)), (proj1 (wt_get (tr2 t) Hw)), (proj1 (wt_get (tr3 t) Hw)), !rx_add.
    rewrite feps_real, rx_ltb. fold (tri_total w t).
    destruct (Rltb (tri_total w t) (/ IZR (2 ^ 52))) eqn:E; [reflexivity|]. apply Rltb_false in E.
    destruct H as [H|H]; [lra|].
    assert (N1 := named_rp rps (tr1 t)). assert (N2 := named_rp rps (tr2 t)). assert (N3 := named_rp rps (tr3 t)).
    destruct H as [H|[H|H]]; rewrite H in *; rewrite ?N1, ?N2, ?N3; cbn [negb orb]; rewrite ?Bool.orb_true_r; reflexivity.
  - intros Hp x1 y1 x2 y2 x3 y3 P1 P2 P3.
    assert (N1 := named_rp rps (tr1 t)). assert (N2 := named_rp rps (tr2 t)). assert (N3 := named_rp rps (tr3 t)).
    rewrite P1 in N1. rewrite P2 in N2. rewrite P3 in N3.
    destruct N1 as (H1 & r1 & G1 & Q1). destruct N2 as (H2 & r2 & G2 & Q2). destruct N3 as (H3 & r3 & G3 & Q3).
    destruct (wt_get (tr1 t) Hw) as [E1 W1]. destruct (wt_get (tr2 t) Hw) as [E2 W2]. destruct (wt_get (tr3 t) Hw) as [E3 W3].
    rewrite E1, E2, E3, !rx_add, feps_real, rx_ltb. fold (tri_total w t).
    assert (E : Rltb (tri_total w t) (/ IZR (2 ^ 52)) = false) by (apply Rltb_false; exact Hp). rewrite E.
    rewrite H1, H2, H3, G1, G2, G3. cbn [negb orb bind]. rewrite Q1, Q2, Q3. cbn [px py].
    assert (T : 0 < tri_total w t).
    { apply Rlt_le_trans with (/ IZR (2 ^ 52)); [apply Rinv_0_lt_compat; apply IZR_lt; lia|exact Hp]. }
    exists (wt w (tr1 t) / tri_total w t), (wt w (tr2 t) / tri_total w t), (wt w (tr3 t) / tri_total w t).
    assert (D : forall a, 0 <= a -> 0 <= a / tri_total w t).
    { intros a Ha. unfold Rdiv. apply Rmult_le_pos; [exact Ha|left; apply Rinv_0_lt_compat, T]. }
    split; [apply D, W1|]. split; [apply D, W2|]. split; [apply D, W3|]. split.
    { unfold tri_total in *. field. lra. }
    split; [field; lra|]. split; [field; lra|]. split; [field; lra|].
    rewrite !rx_mul, !rx_add, !rx_div by lra. do 2 f_equal; f_equal; field; lra.
Qed.

Lemma rp_weights_good (rm : rmap RX) ms diff : Forall real_radio ms -> real_map rm -> real_weights (rp_weights rm ms diff).
Proof.
  intros Hm Hr. apply Forall_forall. intros [p v] Hi.
  assert (E := in_alookup_nodup _ _ _ (rp_weights_nodup rm ms diff) Hi).
  rewrite rp_weights_real in E by assumption. cbv zeta in E.
  destruct (Nat.ltb_spec (List.length (commons rm ms p)) 3) as [L|L]; [discriminate|]. injection E as <-.
  eexists. split; [reflexivity|]. left. apply point_weight_pos, L.
Qed.

Section Gen.
Context {F : Type} {NF : Num F} {SO : Sorter}.
Lemma k_average_zero (rm : radiomap F) w k : ((f0 : F) <! feps) = true -> k_heaviest_average rm w k = Ok xy0.
Proof. intros H. unfold k_heaviest_average. cbv zeta. cbn [firstn fold_left bind]. rewrite H. reflexivity. Qed.
End Gen.
