(** C91: a receiver that hears everything stronger, and measurements in another order. *)
From Coq Require Import Reals Lra Lia Permutation.
From Verif Require Import Lib NumReal NumFloat LibR SortInst Knn Estimators Spec_Knn Spec_Offset Pf_Knn Pf_KnnEst Pf_Offset Ex P_Knn.
Local Open Scope string_scope.
Local Open Scope list_scope.
#[local] Existing Instance nf.
#[local] Existing Instance isorter.

(** in difference mode neither a receiver that hears [k] dB more nor a survey
    made with one that heard [j] dB more changes the weight of any point *)
Theorem C91_weights (rm : rmap RX) (ms : list (radio RX)) (p : string) (k j : R) : Forall real_radio ms -> real_map rm ->
  alookup p (rp_weights (surveyed_louder j rm) (map (louder k) ms) true) = alookup p (rp_weights rm ms true).
Proof. exact (@weights_louder rm ms p k j). Qed.
Print Assumptions C91_weights.
(** so the estimate is the same *)
Theorem C91_offset {SO : Sorter} (s : settings RX) (kt : ktables RX) (mpos : position RX) (l : level RX) (ts : Z) (ms : list (radio RX)) (k : R) :
  s_diff s = true -> Forall real_radio ms -> tables_real kt ->
  knn_position s kt mpos l ts (map (louder k) ms) = knn_position s kt mpos l ts ms.
Proof. exact (@knn_louder SO s kt mpos l ts ms k). Qed.
Print Assumptions C91_offset.
(** in either mode the order of the measurements does not matter *)
Theorem C91_order {SO : Sorter} (s : settings RX) (kt : ktables RX) (mpos : position RX) (l : level RX) (ts : Z) (ms ms' : list (radio RX)) :
  Permutation ms ms' -> NoDup (map (@r_id RX) ms) -> Forall real_radio ms -> tables_real kt ->
  knn_position s kt mpos l ts ms = knn_position s kt mpos l ts ms'.
Proof. exact (@knn_perm SO s kt mpos l ts ms ms'). Qed.
Print Assumptions C91_order.

(** the tables and measurements of C50's example meet the hypotheses *)
Example C91_example (s : settings RX) mpos : s_triangles s = true -> (s_minmsr s <= 3)%nat -> s_diff s = true ->
  Forall real_radio pl_ms /\ NoDup (map (@r_id RX) pl_ms) /\ tables_real C50_kt /\
  exists p, knn_position s C50_kt mpos C50_level 7%Z (rev (map (louder 20) pl_ms)) = Ok (p, (OK, p)).
Proof.
  intros Ht Hm Hd. destruct pl_real as [R1 R2]. destruct (C50_estimator_example s mpos Ht Hm) as (T & _ & p & E).
  assert (N : NoDup (map (@r_id RX) pl_ms)) by (cbn; repeat constructor; cbn; intuition discriminate).
  split; [exact R1|]. split; [exact N|]. split; [exact T|]. exists p.
  rewrite <- (@C91_order _ s C50_kt mpos C50_level 7%Z (map (louder 20) pl_ms)).
  - rewrite C91_offset by assumption. exact E.
  - apply Permutation_rev.
  - exact N.
  - apply louder_real, R1.
  - exact T.
Qed.

(** in plain mode the weights shift against each other *)
Theorem C91_plain_refuted : exists (rm : rmap RX) (ms : list (radio RX)) k p q wp wq wp' wq',
  Forall real_radio ms /\ real_map rm /\
  alookup p (rp_weights rm ms false) = Some (Some wp : RX) /\ alookup q (rp_weights rm ms false) = Some (Some wq : RX) /\
  alookup p (rp_weights rm (map (louder k) ms) false) = Some (Some wp' : RX) /\
  alookup q (rp_weights rm (map (louder k) ms) false) = Some (Some wq' : RX) /\ (wp / wq <> wp' / wq')%R.
Proof.
  destruct pl_real as [R1 R2].
  assert (W : forall p v, commons pl_rm (map (louder 20) pl_ms) p = [mkCommon "a" (-60 + 20) v; mkCommon "b" (-60 + 20) v; mkCommon "c" (-60 + 20) v] -> (v < 0)%R ->
    alookup p (rp_weights pl_rm (map (louder 20) pl_ms) false) = Some (Some (3 / sqrt (40 - v))%R : RX)).
  { intros p v E Hv. rewrite rp_weights_real by (assumption || apply louder_real, R1). cbv zeta. rewrite E. cbn [List.length Nat.ltb Nat.leb].
    do 2 f_equal. rewrite (@point_weight_ext false _ (share pl_ms)) by (intros; apply share_louder).
    unfold point_weight_of, plain_total, plain_norm. cbn [map c_tx c_db c_meas List.length].
    rewrite !pl_share by (cbn; auto). rewrite !rsum_cons, !rsum_nil.
    rewrite Rmax_left by (rewrite Rabs_left by lra; lra).
    destruct (Rlt_dec (1 / 100000000) (1 / 3 + (1 / 3 + (1 / 3 + 0)))) as [H|H]; [|exfalso; apply H; lra].
    rewrite Rabs_left by lra. replace (INR 3) with 3%R by (cbn; lra). match goal with |- context [sqrt ?a] => replace a with (40 - v)%R by field end. reflexivity. }
  exists pl_rm, pl_ms, 20%R, "p", "q", (3 / sqrt (60 - (-60)))%R, (3 / sqrt (60 - (-30)))%R, (3 / sqrt (40 - (-60)))%R, (3 / sqrt (40 - (-30)))%R.
  split; [exact R1|]. split; [exact R2|]. split; [apply pl_weight; [reflexivity|lra]|]. split; [apply pl_weight; [reflexivity|lra]|].
  split; [apply W; [reflexivity|lra]|]. split; [apply W; [reflexivity|lra]|].
  assert (Q : forall a b, (0 < a)%R -> (0 < b)%R -> (3 / sqrt a / (3 / sqrt b) = sqrt (b / a))%R).
  { intros a b Ha Hb. rewrite sqrt_div by lra. assert (0 < sqrt a)%R by (apply sqrt_lt_R0; lra). assert (0 < sqrt b)%R by (apply sqrt_lt_R0; lra). field. lra. }
  rewrite !Q by lra. intros E. apply sqrt_inj in E; lra.
Qed.
Print Assumptions C91_plain_refuted.

(** the zone estimator gives the same place, with another radius *)
Theorem C91_zone (zt : list (string * (RX * RX))) (l : level RX) (ts : Z) (ms : list (radio RX)) (k : R) (st : nstatus) (p : position RX) :
  Forall real_radio ms -> zone_position zt l ts ms = Ok (st, p) ->
  exists d, zone_position zt l ts (map (louder k) ms) = Ok (st, pos_set_dev p d).
Proof. exact (@zone_louder zt l ts ms k st p). Qed.
Print Assumptions C91_zone.
Example C91_zone_example : let ms := [@ex_radio RX num_real "a" (-70); @ex_radio RX num_real "b" (-60)] in
  Forall real_radio ms /\ exists p, zone_position [("L1", (Some (-60)%R : RX, Some 2%R : RX))] (@ex_L1 RX num_real) 7%Z ms = Ok (OK, p) /\ p_x p = Some 10%R.
Proof.
  split; [repeat constructor; eexists; reflexivity|]. unfold zone_position.
  cbn [level_radio ex_L1 ex_level filter contains_tx l_txs ex_tx map amem alookup fst r_id ex_radio String.eqb Ascii.eqb Bool.eqb].
  change (level_radio (@ex_L1 RX num_real) [@ex_radio RX num_real "a" (-70); @ex_radio RX num_real "b" (-60)]) with [@ex_radio RX num_real "a" (-70); @ex_radio RX num_real "b" (-60)].
  cbv iota. cbn [max_elem_from]. assert (E : (r_rssi (@ex_radio RX num_real "a" (-70)) <! r_rssi (@ex_radio RX num_real "b" (-60))) = true).
  { cbn [r_rssi ex_radio]. rewrite !rx_ofZ, rx_ltb. apply Rltb_true. apply IZR_lt. lia. }
  rewrite E. eexists. split; [reflexivity|]. reflexivity.
Qed.

(** the level told by transmitters is not the same: by 40 dB the other level wins *)
Definition ex_shift (k : Z) (m : radio SF) : radio SF := mkRadio (r_type m) (r_id m) (r_rssi m +! fofZ k) (r_power m) (r_dist m) (r_std m).
Theorem C91_level_refuted : exists (c : collector SF) (ms : list (radio SF)) (k : Z) l l',
  detect_tx false c ms = Ok l /\ detect_tx false c (map (ex_shift k) ms) = Ok l' /\ l <> l'.
Proof.
  exists ex_col, [ex_radio "a" (-52); ex_radio "b" (-52); ex_radio "c" (-51)], 40%Z, "L1", "L2".
  split; [vm_compute; reflexivity|]. split; [vm_compute; reflexivity|discriminate].
Qed.
Print Assumptions C91_level_refuted.
