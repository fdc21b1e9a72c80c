(** Proofs for C106-C108. *)
From Coq Require Import Reals Lra Lia Psatz.
From Verif Require Import Lib NumReal LibR Sensors SaCf SaPos Preproc Postproc Knn Spec_Sensors Spec_SaCf Spec_Conf Pf_Level.
Set Implicit Arguments.
Local Open Scope list_scope.
Local Notation x2 x := (Some x : RX).

(** * Milliseconds *)
Section Ms.
Local Open Scope R_scope.
Lemma trunc_whole y : (0 <= y -> IZR (Rtrunc y) <= y < IZR (Rtrunc y) + 1) /\ (y < 0 -> IZR (Rtrunc y) - 1 < y <= IZR (Rtrunc y)).
Proof.
  unfold Rtrunc. destruct (Rltb y 0) eqn:E.
  - apply Rltb_true in E. split; [lra|]. intros _. destruct (base_Int_part (- y)) as [A B]. rewrite opp_IZR. lra.
  - apply Rltb_false in E. split; [|lra]. intros _. destruct (base_Int_part y) as [A B]. lra.
Qed.
Lemma whole_unique x z z' : whole_ms x z -> whole_ms x z' -> z = z'.
Proof.
  intros [A B] [A' B'].
  assert (IZR z < IZR z' + 1 /\ IZR z' < IZR z + 1) as [P Q].
  { destruct (Rle_dec 0 x) as [H|H].
    - specialize (A H). specialize (A' H). lra.
    - assert (H' : x < 0) by lra. specialize (B H'). specialize (B' H'). lra. }
  rewrite <- plus_IZR in P, Q. apply lt_IZR in P, Q. lia.
Qed.
Lemma whole_exists x : exists z, whole_ms x z.
Proof.
  exists (Rtrunc (1000 * x)). destruct (trunc_whole (1000 * x)) as [A B]. split; intros H; [apply A|apply B]; lra.
Qed.
Lemma to_ms_whole x : (exists z, whole_ms x z /\ int64 z /\ to_ms (x2 x) = Ok z) \/
  (to_ms (x2 x) = UB /\ forall z, whole_ms x z -> ~ int64 z).
Proof.
  unfold to_ms. rewrite rx_ofZ, rx_mul. cbn [ftoZ num_real]. unfold rtoZ.
  assert (W : whole_ms x (Rtrunc (1000 * x))).
  { destruct (trunc_whole (1000 * x)) as [A B]. split; intros H; [apply A|apply B]; lra. }
  set (z := Rtrunc (1000 * x)) in *. cbv zeta. destruct ((- 2 ^ 63 <=? z) && (z <? 2 ^ 63))%Z eqn:E.
  - left. exists z. apply andb_true_iff in E. destruct E as [E1 E2]. apply Z.leb_le in E1. apply Z.ltb_lt in E2.
    split; [exact W|]. split; [split; assumption|reflexivity].
  - right. split; [reflexivity|]. intros z' W' [I1 I2]. rewrite (whole_unique W' W) in *.
    apply Z.leb_le in I1. apply Z.ltb_lt in I2. rewrite I1, I2 in E. discriminate.
Qed.
Lemma to_ms_ok x z : to_ms (x2 x) = Ok z -> whole_ms x z /\ int64 z.
Proof.
  intros E. destruct (to_ms_whole x) as [(z' & W & I & E')|[E' _]]; rewrite E' in E; [|discriminate].
  injection E as <-. auto.
Qed.
Lemma to_ms_real (a : RX) z : to_ms a = Ok z -> exists x, a = x2 x.
Proof. destruct a as [x|]; [eauto|]. cbn. discriminate. Qed.
End Ms.
Lemma window_ok w s : window_rule w s (w - (if (s =? 0)%Z || (w <? s)%Z then w else s)) (if (s =? 0)%Z || (w <? s)%Z then w else s).
Proof.
  split; [lia|]. destruct (Z.eqb_spec s 0), (Z.ltb_spec w s); cbn [orb]; split; intros; try reflexivity; try lia.
Qed.

(** * The low-passed samples *)
Section Dead.
Context {F : Type} {NF : Num F}.
Lemma update_low fuel k (c d : cfilter F) m : same_but_low c d -> agree same_but_low (cf_update fuel k c m) (cf_update fuel k d m).
Proof.
  intros (H1 & H2 & H3 & H4 & H5 & H6 & H7 & H8). unfold cf_update. rewrite H2, H3, H4, H5, H6, H7, H8.
  destruct (s_type (st_data m)); try (cbn; unfold same_but_low; cbn; repeat split; auto; fail).
  match goal with |- context [let '(_, _) := ?e in _] => destruct e as [q ie] end.
  destruct (magnetic_azimuth fuel q (s_val (st_data m))) as [az| | |]; cbn [bind agree]; try exact I.
  unfold same_but_low. cbn. repeat split; auto.
Qed.
Lemma run_low fuel k ms : forall c d : cfilter F, same_but_low c d -> agree same_but_low (cf_run fuel k c ms) (cf_run fuel k d ms).
Proof.
  induction ms as [|m t IH]; intros c d H; cbn [cf_run]; [exact H|].
  pose proof (@update_low fuel k c d m H) as U.
  destruct (cf_update fuel k c m), (cf_update fuel k d m); cbn [bind agree] in *; try exact I; try contradiction. apply IH; exact U.
Qed.
Definition sf_same (f g : sfusion F) : Prop :=
  same_but_low (sf_cf f) (sf_cf g) /\ sf_ped f = sf_ped g /\ sf_steps f = sf_steps g /\ sf_prevhead f = sf_prevhead g.
Lemma step_low fuel s (f g : sfusion F) m ts : sf_same f g ->
  agree (fun a b => sf_same (fst a) (fst b) /\ snd a = snd b) (sf_step fuel s f m ts) (sf_step fuel s g m ts).
Proof.
  intros (Hc & Hp & Hs & Hh). unfold sf_step. rewrite Hp.
  destruct (ped_update (sf_ped g) m) as [p| | |]; cbn [bind agree]; try exact I.
  destruct (ped_steps p) as [[p1 st]| | |]; cbn [bind agree]; try exact I.
  pose proof (@update_low fuel (cf_conf s) _ _ m Hc) as U.
  destruct (cf_update fuel (cf_conf s) (sf_cf f) m) as [c| | |], (cf_update fuel (cf_conf s) (sf_cf g) m) as [d| | |];
    cbn [bind agree] in *; try exact I; try contradiction.
  assert (U' := U). destruct U as (H1 & H2 & H3 & H4 & H5 & H6 & H7 & H8).
  assert (A : fused_azimuth c = fused_azimuth d) by (unfold fused_azimuth; congruence).
  assert (B : azimuth_outdated (cf_conf s) c = azimuth_outdated (cf_conf s) d) by (unfold azimuth_outdated; congruence).
  rewrite A, B, H6, H7, H8, Hs, Hh.
  match goal with |- context [let '(_, _) := ?e in _] => destruct e as [az azv] end.
  destruct st as [|x t]; cbn [agree fst snd].
  - unfold sf_same. cbn. auto.
  - repeat match goal with |- context [match ?e with _ => _ end] => destruct e end; cbn [agree fst snd]; unfold sf_same; cbn; auto.
Qed.
Lemma sf_run_low fuel s ms : forall f g : sfusion F, sf_same f g ->
  agree (fun a b => snd a = snd b) (sf_run fuel s f ms) (sf_run fuel s g ms).
Proof.
  cut (forall f g : sfusion F, sf_same f g ->
    agree (fun a b => sf_same (fst a) (fst b) /\ snd a = snd b) (sf_run fuel s f ms) (sf_run fuel s g ms)).
  { intros H f g Hf. specialize (H f g Hf). destruct (sf_run fuel s f ms), (sf_run fuel s g ms); cbn in *; tauto. }
  induction ms as [|[m ts] t IH]; intros f g H; cbn [sf_run]; [cbn; auto|].
  pose proof (@step_low fuel s f g m ts H) as U.
  destruct (sf_step fuel s f m ts) as [[f1 o]| | |], (sf_step fuel s g m ts) as [[g1 o']| | |]; cbn [bind agree fst snd] in *; try exact I; try contradiction.
  destruct U as [U ->]. specialize (IH _ _ U).
  destruct (sf_run fuel s f1 t) as [[f2 r]| | |], (sf_run fuel s g1 t) as [[g2 r']| | |]; cbn [bind agree fst snd] in *; try exact I; try contradiction.
  destruct IH as [IH ->]. auto.
Qed.
Lemma run_fold fuel k ms : forall c c' : cfilter F, cf_run fuel k c ms = Ok c' ->
  cf_acc c' = fold_left low_pass (filter (of_type ACCELEROMETER) ms) (cf_acc c) /\
  cf_magn c' = fold_left low_pass (filter (of_type MAGNETOMETER) ms) (cf_magn c).
Proof.
  induction ms as [|m t IH]; intros c c' E; cbn [cf_run] in E; [injection E as <-; auto|].
  inv_bind E. destruct (IH _ _ Hb) as [A B]. rewrite A, B. clear IH Hb A B. unfold cf_update in Ha.
  cbn [filter]. unfold of_type. destruct (s_type (st_data m)); cbn [fold_left]; try (injection Ha as <-; auto; fail).
  match type of Ha with context [let '(_, _) := ?e in _] => destruct e as [q ie] end.
  inv_bind Ha. injection Hb as <-. auto.
Qed.
End Dead.

Section Axis.
Local Open Scope R_scope.
Lemma old_weight_range d : 0 < old_weight d <= / (1 + 2 / 100).
Proof.
  unfold old_weight. pose proof (Rmax_r (IZR d / 1000) (2 / 100)) as P. split; [apply Rinv_0_lt_compat; lra|].
  apply Rinv_le_contravar; lra.
Qed.
Lemma low_pass_coord i p m v x : coord i p = x2 v -> coord i m = x2 x ->
  coord i (low_pass p m) = x2 (old_weight (st_ts m - st_ts p) * v + (1 - old_weight (st_ts m - st_ts p)) * x) /\
  st_ts (low_pass p m) = st_ts m.
Proof.
  intros Hv Hx. split; [|reflexivity]. unfold low_pass. rewrite rx_ofZ, (rx_ofZ 1000), rx_div, rx_lit, rx_fmax, rx_f1, rx_add by lra.
  pose proof (old_weight_range (st_ts m - st_ts p)) as W. unfold old_weight in *.
  pose proof (Rmax_r (IZR (st_ts m - st_ts p) / 1000) (2 / 100)) as P.
  rewrite rx_div by lra. rewrite rx_sub. unfold Rdiv at 1 4. rewrite !Rmult_1_l.
  set (a := / (1 + Rmax (IZR (st_ts m - st_ts p) / 1000) (2 / 100))) in *.
  destruct i; cbn [coord st_data s_val] in *; unfold v_add, v_scale; cbn [vx vy vz]; rewrite Hv, Hx, !rx_mul, rx_add; f_equal; ring.
Qed.
Lemma fold_coord i ms : forall p v vs, coord i p = x2 v -> map (coord i) ms = map (fun x => x2 x) vs ->
  coord i (fold_left low_pass ms p) = x2 (smoothed (st_ts p) v (combine (map (fun m => st_ts m) ms) vs)).
Proof.
  induction ms as [|m t IH]; intros p v vs Hp Hm; destruct vs as [|x vs]; cbn [map] in Hm; try discriminate Hm; [exact Hp|].
  injection Hm as Hx Ht. destruct (@low_pass_coord i p m v x Hp Hx) as [E1 E2].
  cbn [fold_left map combine smoothed]. cbv zeta. rewrite (IH _ _ vs E1 Ht), E2. reflexivity.
Qed.
Lemma smoothed_range lo hi ms : Forall (fun m => lo <= snd m <= hi) ms -> forall t v, lo <= v <= hi -> lo <= smoothed t v ms <= hi.
Proof.
  induction 1 as [|[t1 x] r Hx _ IH]; intros t v Hv; cbn [smoothed]; [exact Hv|]. cbv zeta. apply IH. cbn [snd] in Hx.
  pose proof (old_weight_range (t1 - t)) as [W1 W2]. assert (W3 : / (1 + 2 / 100) < 1) by lra.
  set (a := old_weight (t1 - t)) in *. clearbody a. split; nra.
Qed.
Lemma smoothed_const c ts : forall t v, smoothed t v (map (fun s => (s, c)) ts) - c = damping t ts * (v - c).
Proof.
  induction ts as [|s r IH]; intros t v; cbn [map smoothed damping]; [ring|]. cbv zeta. rewrite IH. ring.
Qed.
Lemma damping_range ts : forall t, 0 < damping t ts <= / (1 + 2 / 100) ^ List.length ts.
Proof.
  induction ts as [|s r IH]; intros t; cbn [damping List.length pow]; [rewrite Rinv_1; lra|].
  pose proof (old_weight_range (s - t)) as [W1 W2]. destruct (IH s) as [D1 D2]. split; [apply Rmult_lt_0_compat; assumption|].
  rewrite Rinv_mult. apply Rmult_le_compat; lra.
Qed.
End Axis.

(** * The tables *)
Section Tables.
Context {F : Type} {NF : Num F}.
Lemma equal_range_entries (l : level F) tx : equal_range (level_rmap l) tx = entries l tx.
Proof.
  unfold equal_range, level_rmap, entries. rewrite filter_flat_map, map_flat_map. apply flat_map_ext. intros rp.
  induction (rp_fp rp) as [|[k s] t IH]; cbn; [reflexivity|]. destruct (String.eqb k tx); cbn; rewrite IH; reflexivity.
Qed.
Lemma find_rev (ls : list (level F)) id : 
  match find (fun l => String.eqb id (l_id l)) (rev ls) with
  | Some l => last_level ls id l
  | None => Forall (fun l => l_id l <> id) ls
  end.
Proof.
  induction ls as [|l t IH] using rev_ind; [constructor|]. rewrite rev_app_distr. cbn [rev app find].
  destruct (String.eqb_spec id (l_id l)) as [->|N].
  - exists t, []. auto.
  - destruct (find _ (rev t)) as [l'|].
    + destruct IH as (a & b & -> & E & Hb). exists a, (b ++ [l]). rewrite <- app_assoc. split; [reflexivity|]. split; [exact E|].
      apply Forall_app; split; [exact Hb|]. apply Forall_cons; [congruence|constructor].
    + apply Forall_app; split; [exact IH|]. apply Forall_cons; [congruence|constructor].
Qed.
Lemma last_level_in (ls : list (level F)) id l : last_level ls id l -> In l ls.
Proof. intros (a & b & -> & _). apply in_or_app. right. left. reflexivity. Qed.
Lemma step_in lid (m : list (string * list string)) (rp : refpoint F) k tx :
  In tx (mget [] k (ref_tx_step lid m rp)) <-> In tx (mget [] k m) \/ (k = lid /\ In tx (map fst (rp_fp rp))).
Proof.
  unfold ref_tx_step. destruct (map fst (rp_fp rp)) as [|x t] eqn:E; [cbn; tauto|].
  destruct (string_dec k lid) as [->|N].
  - rewrite mget_mset_same, in_app_iff. tauto.
  - rewrite mget_mset_other by exact N. tauto.
Qed.
Lemma fold_in lid rps : forall (m : list (string * list string)) k tx,
  In tx (mget [] k (fold_left (@ref_tx_step F lid) rps m)) <->
  In tx (mget [] k m) \/ (k = lid /\ exists rp, In rp rps /\ In tx (map fst (rp_fp rp))).
Proof.
  induction rps as [|rp t IH]; intros m k tx; cbn [fold_left].
  - split; [auto|]. intros [H|(_ & rp & [] & _)]. exact H.
  - rewrite IH, step_in. split.
    + intros [[H|[-> H]]|(-> & r & Hr & H)]; [auto|right..]; split; auto; [exists rp|exists r]; cbn; auto.
    + intros [H|(-> & r & [<-|Hr] & H)]; auto. right. split; [reflexivity|]. exists r. auto.
Qed.
Lemma ref_txs_in (c : collector F) k tx :
  In tx (mget [] k (ref_txs c)) <-> exists l, In l (col_levels c) /\ l_id l = k /\ mentions l tx.
Proof.
  unfold ref_txs, mentions. 
  cut (forall ls m, In tx (mget [] k (fold_left (fun m (l : level F) => fold_left (ref_tx_step (l_id l)) (rm_points (l_rm l)) m) ls m)) <->
    In tx (mget [] k m) \/ exists l, In l ls /\ l_id l = k /\ exists rp, In rp (rm_points (l_rm l)) /\ In tx (map fst (rp_fp rp))).
  { intros H. rewrite H. split; [intros [[]|X]; exact X|auto]. }
  induction ls as [|l t IH]; intros m; cbn [fold_left].
  - split; [auto|]. intros [H|(l & [] & _)]. exact H.
  - rewrite IH, fold_in. split.
    + intros [[H|(-> & H)]|(l' & Hl & H)]; [auto|right; exists l; cbn; auto|right; exists l'; cbn; auto].
    + intros [H|(l' & [<-|Hl] & <- & H)]; auto. right. exists l'. auto.
Qed.
Lemma ref_txs_keys (c : collector F) k : In k (map fst (ref_txs c)) <-> exists tx, In tx (mget [] k (ref_txs c)).
Proof.
  unfold ref_txs.
  cut (forall ls m, (In k (map fst m) <-> exists tx, In tx (mget [] k m)) ->
    (In k (map fst (fold_left (fun m (l : level F) => fold_left (ref_tx_step (l_id l)) (rm_points (l_rm l)) m) ls m)) <->
     exists tx, In tx (mget [] k (fold_left (fun m (l : level F) => fold_left (ref_tx_step (l_id l)) (rm_points (l_rm l)) m) ls m)))).
  { intros H. apply H. cbn. split; [tauto|]. intros [tx []]. }
  induction ls as [|l t IH]; intros m Hm; cbn [fold_left]; [exact Hm|]. apply IH. clear IH.
  generalize (rm_points (l_rm l)) as rps. intros rps. revert m Hm. induction rps as [|rp r IH]; intros m Hm; cbn [fold_left]; [exact Hm|].
  apply IH. unfold ref_tx_step. destruct (map fst (rp_fp rp)) as [|x s]; [exact Hm|]. rewrite keys_mset.
  destruct (string_dec k (l_id l)) as [->|N].
  - rewrite mget_mset_same. split; [|auto]. intros _. exists x. apply in_or_app. right. left. reflexivity.
  - rewrite mget_mset_other by exact N. rewrite <- Hm. tauto.
Qed.
End Tables.
