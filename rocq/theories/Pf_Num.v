(** Fixes are numbers and lie on the map (C88, C90). *)
From Coq Require Import Lia Reals Lra Permutation.
From Verif Require Import Base Lib NumReal LibR NumOrd Client Likelihood Spec_Preproc Spec_Level Spec_Client Spec_Post Spec_Knn Spec_Geo Spec_Radio Spec_Num
  Pf_Level Pf_Preproc Pf_Client Pf_ClientInv Pf_ClientThrow Pf_ClientTop Pf_Post Pf_Geo Pf_Knn Pf_KnnEst Pf_Radio Pf_Place.
Set Implicit Arguments.
Local Open Scope R_scope.

(** ** The local map *)
Record real_level (l : level RX) : Prop := mkRL {
  rl_bind : exists b, l_bind l = rx_geo b /\ circ_at b <> 0;
  rl_box : exists x1 y1, 0 <= x1 /\ 0 <= y1 /\ real_box (l_box l) 0 0 x1 y1;
  rl_txs : forall i t, In (i, t) (l_txs l) -> defined (zx (t_pt t)) /\ defined (zy (t_pt t));
  rl_rm : l_rm l = mk_radiomap (rm_points (l_rm l));
  rl_rps : forall r, In r (rm_points (l_rm l)) -> real_xy (rp_pt r);
  rl_fps : real_map (level_rmap l) }.

Lemma gps_defined a o b : defined a -> defined o -> exists p, gps_to_local (mkGeo a o) (rx_geo b) = rx_pt p.
Proof. intros [x ->] [y ->]. change (mkGeo (Some x) (Some y)) with (rx_geo (x, y)). rewrite gps_to_local_real. eauto. Qed.
Lemma tx_map_In (ts : list (transmitter RX)) i t : In (i, t) (tx_map ts) -> In t ts.
Proof.
  unfold tx_map. assert (G : forall l acc, In (i, t) (fold_left (fun m t0 => ainsert (t_id t0) t0 m) l acc) -> In (i, t) acc \/ In t l).
  { induction l as [|x l IH]; intros acc H; [left; exact H|]. cbn [fold_left] in H. apply IH in H. destruct H as [H|H]; [|right; right; exact H].
    unfold ainsert in H. destruct (amem (t_id x) acc); [left; exact H|].
    apply in_app_or in H; destruct H as [H|[H|[]]]; [left; exact H|injection H as _ <-; right; left; reflexivity]. }
  intros H. apply G in H. destruct H as [[]|H]; exact H.
Qed.
Lemma local_real g l : real_geolevel g -> local_level g = Ok l -> real_level l.
Proof.
  intros [Hb Ht Hr] H. destruct Hb as (la1 & lo1 & la2 & lo2 & Hb & P1 & P2).
  assert (Hx := geolevel_box _ Hb H).
  assert (Hbind : exists b, get_binding g = rx_geo b /\ circ_at b <> 0).
  { destruct Hb as [Hb _]. assert (C := correct_real Hb). destruct C as (A & B & _ & _). unfold get_binding. rewrite A, B.
    exists (Rmin la1 la2, Rmin lo1 lo2). split; [reflexivity|]. apply circ_nonzero. cbn. unfold Rmin. destruct (Rle_dec la1 la2); lra. }
  destruct Hbind as (b & Eb & Hc). unfold local_level in H. inv_bind H. injection Hb0 as <-. rewrite Eb in *. constructor; cbn [l_bind l_box l_txs l_rm].
  - exists b. split; [reflexivity|exact Hc].
  - exact Hx.
  - intros i t Hi. apply tx_map_In in Hi. apply in_map_iff in Hi. destruct Hi as (u & <- & Hu). destruct (Ht u Hu) as [A B].
    unfold local_tx. cbv zeta. destruct (gps_defined b A B) as (p & ->). cbn. split; eexists; reflexivity.
  - reflexivity.
  - cbn. intros r Hi. apply in_map_iff in Hi. destruct Hi as (u & <- & Hu). destruct (Hr u Hu) as (A & B & _). unfold local_rp. cbn [rp_pt].
    destruct (grp_pt u) as [la lo]. cbn in A, B. destruct (gps_defined b A B) as (p & ->). split; eexists; reflexivity.
  - unfold real_map, level_rmap. cbn. apply Forall_forall. intros e He. apply in_flat_map in He. destruct He as (r & Hi & He).
    apply in_map_iff in Hi. destruct Hi as (u & <- & Hu). apply in_map_iff in He. destruct He as ((i & ss) & <- & He). cbn in *.
    destruct (Hr u Hu) as (_ & _ & C). eapply C; exact He.
Qed.
Lemma add_levels_from gs : forall (c c' : collector RX) l, add_geo_levels c gs = Ok c' -> In l (col_levels c') ->
  In l (col_levels c) \/ exists g, In g gs /\ local_level g = Ok l.
Proof.
  induction gs as [|g gs IH]; intros c c' l H Hl; [injection H as <-; left; exact Hl|].
  unfold add_geo_levels in H. cbn [fold_left bind] in H.
  destruct (add_geo_level c g) as [c1| | |] eqn:E.
  2-4: exfalso; clear -H; induction gs as [|g' gs IH]; cbn in H; [discriminate|auto].
  destruct (IH c1 c' l H Hl) as [Hi|(g' & A & B)]; [|right; exists g'; split; [right; exact A|exact B]].
  unfold add_geo_level in E. inv_bind E. injection Hb as <-. cbn in Hi. apply in_app_or in Hi. destruct Hi as [Hi|[<-|[]]]; [left; exact Hi|].
  right. exists g. split; [left; reflexivity|exact Ha].
Qed.
Lemma built_levels_real s gs (k : config RX) {SO : Sorter} : built s gs k -> Forall real_geolevel gs -> forall l, In l (col_levels (cf_col k)) -> real_level l.
Proof.
  intros (c & Hc & Hk) Hg l Hl. unfold mk_config in Hk. inv_bind Hk. inv_bind Hb. inv_bind Hb0. inv_bind Hb. injection Hb0 as <-. cbn in Hl.
  destruct (add_levels_from gs _ _ Hc Hl) as [[]|(g & A & B)]. rewrite Forall_forall in Hg. eapply local_real; [apply Hg, A|exact B].
Qed.

(** ** Radio data *)
Section Num.
Context {SO : Sorter}.
Lemma runs_real (l : list (stamped (radio RX))) : Forall (fun m => real_radio (st_data m)) l ->
  Forall (fun g => real_radio (st_data (fst g)) /\ snd g <> [] /\ Forall (fun m => real_radio (st_data m)) (snd g)) (runs l).
Proof.
  destruct l as [|x t]; [constructor|]. intros H. cbn [runs]. inversion H as [|? ? Hx Ht]; subst. clear H.
  assert (G : forall t x acc, real_radio (st_data x) -> acc <> [] -> Forall (fun m => real_radio (st_data m)) acc -> Forall (fun m => real_radio (st_data m)) t ->
    Forall (fun g => real_radio (st_data (fst g)) /\ snd g <> [] /\ Forall (fun m => real_radio (st_data m)) (snd g)) (runs_from x acc t)).
  { clear. assert (R : forall (A : Type) (a : list A), a <> [] -> rev a <> []).
    { intros A a Ha E. apply Ha. rewrite <- (rev_involutive a), E. reflexivity. }
    induction t as [|e t IH]; intros x acc Hx Ha Hacc Ht; cbn [runs_from].
    - constructor; [|constructor]. split; [exact Hx|]. split; [apply R, Ha|]. apply Forall_rev, Hacc.
    - inversion Ht as [|? ? He Ht']; subst. destruct (id_lt x e).
      + constructor; [split; [exact Hx|split; [apply R, Ha|apply Forall_rev, Hacc]]|]. apply IH; [exact He|discriminate|constructor; [exact He|constructor]|exact Ht'].
      + apply IH; [exact Hx|discriminate|constructor; [exact He|exact Hacc]|exact Ht']. }
  apply G; [exact Hx|discriminate|constructor; [exact Hx|constructor]|exact Ht].
Qed.
Lemma average_real g : real_radio (st_data (fst g)) -> snd g <> [] -> Forall (fun m => real_radio (st_data m)) (snd g) -> real_radio (average_run g).
Proof.
  intros [_ Hp] Hne H. unfold average_run, radio_set. cbv zeta. split; cbn [r_rssi r_power]; [|exact Hp].
  rewrite fsum_rval; [|intros x Hx; rewrite Forall_forall in H; apply (H x Hx)]. rewrite fofnat_real, rx_div; [eexists; reflexivity|].
  apply not_0_INR. destruct (snd g); [congruence|discriminate].
Qed.
Lemma averages_real (l : list (stamped (radio RX))) : Forall (fun m => real_radio (st_data m)) l -> Forall real_radio (map average_run (runs l)).
Proof.
  intros H. apply Forall_map. eapply Forall_impl; [|apply runs_real, H]. intros g (A & B & C). apply average_real; assumption.
Qed.
Lemma extract_real s bc col (p : preproc RX) lm p' rs : Forall (fun m => real_radio (st_data m)) (b_ms (pp_buf p)) ->
  extract_radio s bc col p lm = Ok (p', rs) ->
  Forall (fun m => real_radio (st_data m)) (b_ms (pp_buf p')) /\ Forall real_radio rs.
Proof.
  intros Hb H. unfold extract_radio in H. destruct (buffer_extract bc (pp_buf p) lm) as [b out] eqn:E.
  inv_bind H. rename a into sel. inv_bind Hb0. injection Hb1 as <- <-. cbn [pp_buf]. split.
  - apply Forall_forall. intros m Hm. rewrite Forall_forall in Hb. apply Hb. apply (buffer_incl bc (pp_buf p) lm). rewrite E. exact Hm.
  - assert (Ho : Forall real_radio out).
    { assert (P := sort_id_perm (b_ms (pp_buf p))).
      assert (Hs : Forall (fun m => real_radio (st_data m)) (ssort id_lt (b_ms (pp_buf p)))).
      { apply Forall_forall. intros m Hm. rewrite Forall_forall in Hb. apply Hb. apply (Permutation_in _ (Permutation_sym P)), Hm. }
      apply averages_real in Hs. unfold buffer_extract in E. destruct (_ <? _)%Z; [injection E as <- <-; constructor|].
      destruct (_ && _); [injection E as <- <-; exact Hs|]. destruct (_ =? _)%Z; injection E as <- <-; exact Hs. }
    assert (Hs : Forall real_radio sel).
    { destruct (s_closest s) eqn:Ec.
      - destruct (closest_spec s out Ec Ha) as (dr & P & _). rewrite Forall_forall in *. intros r Hr.
        apply Ho. apply (Permutation_in _ (Permutation_sym P)), in_or_app. auto.
      - unfold closest_aps in Ha. rewrite Ec in Ha. injection Ha as <-. exact Ho. }
    apply mapM_forall2 in Ha0. clear -Hs Ha0. induction Ha0 as [|x y l l' H H1 IH]; [constructor|]. inversion Hs as [|? ? [X1 X2] Hs']; subst.
    constructor; [|auto]. unfold set_distance in H. destruct (negb _).
    + destruct (find_level_by_tx _ _); [|injection H as <-; split; assumption]. inv_bind H. inv_bind Hb. injection Hb0 as <-. split; assumption.
    + injection H as <-. split; assumption.
Qed.
Lemma update_real s col (p : preproc RX) m p' : real_measurement m -> Forall (fun m => real_radio (st_data m)) (b_ms (pp_buf p)) ->
  real_sensor (st_data (pp_sensor p)) -> update_measurements s col p m = Ok p' ->
  Forall (fun m => real_radio (st_data m)) (b_ms (pp_buf p')) /\ real_sensor (st_data (pp_sensor p')).
Proof.
  intros Hm Hb Hs H. unfold update_measurements in H. unfold real_measurement in Hm. destruct (st_data m) as [r|d|d].
  - inv_bind H. destruct a; injection Hb0 as <-; cbn; [|auto]. split; [|exact Hs].
    unfold buffer_add. cbn. apply Forall_app. split; [exact Hb|]. constructor; [|constructor].
    destruct Hm as [[x Hx] Hp]. split; cbn; [rewrite Hx; eexists; reflexivity|exact Hp].
  - injection H as <-. cbn. auto.
  - injection H as <-. cbn. auto.
Qed.

(** ** Positions *)
Definition nn (a : RX) : Prop := exists d, a = Some d /\ 0 <= d.
Lemma nn0 : nn f0. Proof. exists 0. split; [reflexivity|lra]. Qed.
Definition sm_dev (s : settings RX) (m : smoother RX) : Prop :=
  match m with
  | SAB a => nn (p_dev (ab_pos a)) /\ (s_accsmooth s = true -> defined (ab_vx a) /\ defined (ab_vy a))
  | SLsq _ => True
  end.
Lemma fsqrt_real x : 0 <= x -> exists y, fsqrt (Some x : RX) = Some y /\ 0 <= y.
Proof. intros H. exists (sqrt x). split; [apply rx_sqrt, H|apply sqrt_pos]. Qed.
Lemma gain_real s old new : s_accsmooth s = true -> nn (p_dev old) -> nn (p_dev new) ->
  exists g, ab_gain s old new = (Some g : RX) /\ 1 / 10 <= g <= 9 / 10.
Proof.
  intros Hs (a & Ha & Pa) (b & Hb & Pb). unfold ab_gain, min_alpha, max_alpha. rewrite Hs, Ha, Hb, !rx_lit, !rx_add, rx_div by lra.
  set (q := a / (b + a + 5 / 10)). unfold fmax. rewrite rx_ltb. destruct (Rltb (1 / 10) q) eqn:E; rewrite rx_fmin; eexists; split; try reflexivity.
  - apply Rltb_true in E. unfold Rmin. destruct (Rle_dec _ _); lra.
  - unfold Rmin. destruct (Rle_dec _ _); lra.
Qed.
Lemma smooth_dev s al (m : smoother RX) p m' r : sm_real m -> sm_dev s m -> xy_real p -> nn (p_dev p) ->
  sm_smooth s al m p = Ok (m', r) -> sm_dev s m' /\ nn (p_dev r).
Proof.
  intros Hr Hd (x & y & Hx & Hy) Hp. destruct m as [a|q]; cbn [sm_smooth].
  - destruct (ab_smooth s al a p) as [a' r'] eqn:E. intros H. injection H as <- <-. cbn [sm_dev sm_real] in *. destruct Hd as [Hd Hv].
    destruct Hr as (ox & oy & Ox & Oy). unfold ab_smooth in E.
    destruct (Z.ltb_spec (p_ts (ab_pos a)) (p_ts p)) as [L|L]; [|injection E as <- <-; auto]. cbv zeta in E.
    destruct (negb (ab_called a) || _ || _ || _).
    { injection E as <- <-. cbn. split; [|exact Hp]. split; [exact Hp|]. intros _. split; eexists; reflexivity. }
    destruct (s_accsmooth s) eqn:Es; apply pair_equal_spec in E; destruct E as [<- <-]; cbn [ab_pos ab_vx ab_vy].
    2:{ split; [|destruct (_ && _); exact Hp]. split; [destruct (_ && _); exact Hp|discriminate]. }
    destruct (Hv eq_refl) as [[vx0 Vx] [vy0 Vy]]. destruct (gain_real s _ _ Es Hd Hp) as (g & Eg & Bg). rewrite Eg, Vx, Vy, Ox, Oy, Hx, Hy.
    assert (T : 0 < IZR (p_ts p - p_ts (ab_pos a)) / 1000).
    { assert (0 < IZR (p_ts p - p_ts (ab_pos a))) by (apply (IZR_lt 0); lia). lra. }
    rewrite !rx_ofZ, (@rx_div _ 1000) by lra. set (t := IZR _ / 1000) in *. rewrite rx_f1.
    destruct Hp as (d & Ed & Pd).
    assert (Q : forall b u w, p_dev (if b : bool then pos_set_xy p u w else p) = Some d) by (intros [] ? ?; exact Ed).
    cbn [p_dev pos_set_dev]. rewrite !Q.
    rewrite !rx_mul, !rx_sub, (@rx_div (g * g) (2 - g)) by lra.
    rewrite (@rx_div (g * g / (2 - g)) t) by lra. repeat progress rewrite ?rx_mul, ?rx_sub, ?rx_add.
    match goal with |- context [fsqrt (Some ?q)] => destruct (@fsqrt_real q) as (v & Ev & Pv); [apply Rplus_le_le_0_compat; apply Rle_0_sqr|] end.
    rewrite Ev. repeat progress rewrite ?rx_mul, ?rx_add.
    assert (G : nn (Some ((1 - g) * (d + t * v) + g * d))).
    { eexists. split; [reflexivity|]. assert (0 <= t * v) by (apply Rmult_le_pos; lra).
      assert (0 <= (1 - g) * (d + t * v)) by (apply Rmult_le_pos; lra). assert (0 <= g * d) by (apply Rmult_le_pos; lra). lra. }
    split; [split; [exact G|]|exact G]. intros _. split; eexists; reflexivity.
  - intros H. inv_bind H. destruct a as [q' r']. injection Hb as <- <-. split; [exact I|].
    unfold lsq_smooth in Ha. destruct (negb _); [injection Ha as <- <-; exact Hp|].
    inv_bind Ha. inv_bind Hb. destruct (pf_predict _ a _) as [fx xs]. destruct (pf_predict _ a0 _) as [fy ys].
    destruct (_ && negb _); [injection Hb0 as <- <-; exact Hp|]. injection Hb0 as <- <-. destruct (_ && _); exact Hp.
Qed.

(** the post-processor's memory *)
Definition mem_dev (s : settings RX) (o : post RX) : Prop :=
  nn (p_dev (po_last o)) /\ nn (p_dev (tm_prev (po_time o))) /\ nn (p_dev (tm_next (po_time o))) /\ nn (p_dev (po_in o)) /\ sm_dev s (po_sm o).
Lemma mem_dev0 s : mem_dev s (post0 s).
Proof.
  unfold mem_dev, post0. cbn. repeat split; try apply nn0. destruct (s_abfilter s); cbn; [|exact I].
  split; [apply nn0|]. intros _. split; eexists; reflexivity.
Qed.
Lemma time_dev (m : tsm RX) p ts : nn (p_dev (tm_prev m)) -> nn (p_dev (tm_next m)) -> nn (p_dev p) ->
  let m' := fst (time_smooth m p ts) in nn (p_dev (tm_prev m')) /\ nn (p_dev (tm_next m')) /\ nn (p_dev (snd (time_smooth m p ts))).
Proof.
  intros H1 H2 H3. unfold time_smooth. destruct (_ <? _)%Z; [cbn; auto|]. destruct (_ || _); [cbn; auto|].
  destruct (_ || _ || _); [cbn; auto|]. cbv zeta.
  set (m1 := if (p_ts (tm_next m) <? p_ts p)%Z then _ else m).
  assert (A : nn (p_dev (tm_prev m1)) /\ nn (p_dev (tm_next m1))) by (unfold m1; destruct (_ <? _)%Z; cbn; auto).
  destruct A as [A B]. destruct (_ =? _)%Z; [cbn; auto|]. destruct (_ <! _); cbn; auto.
Qed.
Lemma processed_dev s pc o f ts lm l o' p : mem_real o -> mem_dev s o -> xy_real f -> nn (p_dev f) ->
  processed s pc o f ts lm l = Ok (o', p) -> mem_dev s o' /\ nn (p_dev p).
Proof.
  intros Hm (D1 & D2 & D3 & D4 & D5) Hf Hd H. destruct (dropped_dec s pc l f ts) as [D|D].
  - rewrite (processed_dropped _ _ D) in H. injection H as <- <-. split; [repeat split; cbn; auto|apply nn0].
  - assert (X := H); apply processed_inv in X; [|exact D]; destruct X as (sm & tm & r & q & E1 & E2 & E3 & E4).
    assert (G : sm_dev s sm /\ nn (p_dev (tm_prev tm)) /\ nn (p_dev (tm_next tm)) /\ nn (p_dev r)).
    { destruct Hm as (M1 & M2 & M3 & M4). unfold smoothing in E1. inv_bind E1. destruct a as [sm1 r1].
      assert (A : sm_dev s sm1 /\ nn (p_dev r1)).
      { destruct (s_usesmooth s); [|injection Ha as <- <-; auto].
        eapply smooth_dev; [| |exact Hf|exact Hd|exact Ha]; destruct (String.eqb _ _); auto; destruct (po_sm o); cbn; auto.
        split; [exact Hd|]. intros _. split; eexists; reflexivity. }
      destruct A as [A B]. destruct (s_timesmooth s); injection Hb as <- <- <-; [|auto].
      destruct (@time_dev (po_time o) r1 ts D2 D3 B) as (P1 & P2 & P3). auto. }
    destruct G as (G1 & G2 & G3 & G4).
    assert (Hq : nn (p_dev q)).
    { set (hm := hold_or_move _ _ _ _ _ _) in E2.
      assert (Hh : nn (p_dev (fst hm))).
      { unfold hm, hold_or_move. cbv zeta. destruct (_ && _); [destruct (_ && _)|]; cbn; auto. }
      unfold project in E2. destruct (s_graphproj s); [|injection E2 as <-; exact Hh]. inv_bind E2. destruct (_ && _); injection Hb as <-; exact Hh. }
    assert (Hp : nn (p_dev p)) by (rewrite E3; exact Hq). split; [|exact Hp]. subst o'. repeat split; cbn; auto.
Qed.

(** ** Estimators *)
Context (k : config RX).
Context (HS : sound k) (HR : forall l, In l (col_levels (cf_col k)) -> real_level l) (HT : real_tuning (cf_set k)).
Context (HZ : is_knn (cf_set k) = false -> forall l, In l (col_levels (cf_col k)) -> exists A B, mget (f0, f0) (l_id l) (kt_zone (cf_kt k)) = (A, B) /\ defined A /\ exists b, B = Some b /\ b <> 0).
(** ... and any set of positions that contains those inside a level's box *)
Context (M : position RX -> Prop) (HM0 : forall p, p_empty p = true -> M p)
  (HM1 : forall l p x y x1 y1, In l (col_levels (cf_col k)) -> p_x p = Some x -> p_y p = Some y -> real_box (l_box l) 0 0 x1 y1 ->
     0 <= x <= x1 -> 0 <= y <= y1 -> M p)
  (HM2 : s_gpsoutside (cf_set k) = false \/ forall p, M p).
Notation s := (cf_set k).
Notation col := (cf_col k).
Lemma good_nn p : good_pos p -> p_empty p = false -> xy_real p /\ nn (p_dev p).
Proof.
  intros [H|(x & y & d & (A & B & C) & D)] E; [congruence|]. split; [exists x, y; auto|]. exists d. split; [exact C|lra].
Qed.
Lemma good0p : good_pos pos0. Proof. left. reflexivity. Qed.
Lemma max_In A (lt : A -> A -> bool) m l : In (max_elem_from lt m l) (m :: l).
Proof.
  revert m; induction l as [|x l IH]; intros m; cbn; [auto|]. destruct (lt m x); destruct (IH x), (IH m); auto.
Qed.
Lemma zone_real l ts rs st p : is_knn s = false -> In l (col_levels col) -> Forall real_radio rs ->
  zone_position (kt_zone (cf_kt k)) l ts rs = Ok (st, p) -> good_pos p /\ (p_empty p = true \/ p_ts p = ts).
Proof.
  intros Hk Hl Hr H. unfold zone_position in H. destruct rs as [|r0 rs]; [injection H as <- <-; split; [apply good0p|left; reflexivity]|].
  destruct (level_radio l (r0 :: rs)) as [|m0 rest] eqn:E; [injection H as <- <-; split; [apply good0p|left; reflexivity]|].
  cbv zeta in H. inv_bind H. destruct (HZ Hk l Hl) as (A & B & Ez & (av & ->) & bv & -> & Hb0). rewrite Ez in Hb. apply Ok_inj, pair_equal_spec in Hb. destruct Hb as [<- <-].
  set (n := max_elem_from _ m0 rest) in *.
  assert (Hn : real_radio n).
  { assert (I : In n (m0 :: rest)) by apply max_In. rewrite <- E in I. apply filter_In in I. rewrite Forall_forall in Hr. apply Hr, I. }
  destruct Hn as [[v Hv] _]. rewrite Hv. split; [|right; reflexivity]. right.
  assert (Ha' : exists x y, a = mkXY (Some x : RX) (Some y)).
  { destruct (contains_tx l (r_id n)); [|injection Ha as <-; exists 0, 0; reflexivity]. inv_bind Ha. injection Hb as <-.
    unfold get_tx in Ha0. destruct (alookup (r_id n) (l_txs l)) as [t|] eqn:Et; [|discriminate]. injection Ha0 as <-. apply alookup_In in Et.
    destruct (rl_txs (HR l Hl) _ _ Et) as [[x Hx] [y Hy]]. exists x, y. rewrite Hx, Hy. reflexivity. }
  destruct Ha' as (x & y & ->). exists x, y. cbn [px py].
  rewrite rx_sub, rx_div by exact Hb0. change (fexp (Some ((av - v) / bv)) : RX) with (Some (exp ((av - v) / bv)) : RX).
  rewrite rx_sqrt by (left; apply exp_pos). rewrite rx_f1, rx_add. eexists. split; [repeat split|].
  assert (P := sqrt_pos (exp ((av - v) / bv))). lra.
Qed.
Lemma rmaps_real l rm : In l (col_levels col) -> alookup (l_id l) (kt_rmaps (cf_kt k)) = Some rm -> real_map rm.
Proof.
  intros Hl H. rewrite (sd_rmaps HS) in H. rewrite (levels_rmaps_lookup _ _ (proj1 (sd_wf HS)) Hl) in H. injection H as <-. apply (HR l Hl).
Qed.
Lemma indoor_real mp l ts rs kn st p : In l (col_levels col) -> Forall real_radio rs -> good_pos mp ->
  indoor k mp l ts rs = Ok (kn, (st, p)) ->
  good_pos kn /\ good_pos p /\ ((kn = mp /\ (p = mp \/ p_empty p = true \/ p_ts p = ts /\ is_knn s = false)) \/ (kn = p /\ p_ts p = ts /\ p_empty p = false /\ is_knn s = true)).
Proof.
  intros Hl Hr Hm H. unfold indoor in H. assert (Ek : is_knn s = true \/ is_knn s = false) by (clear; destruct (is_knn s); auto). destruct Ek as [Ek|Ek]; rewrite Ek in H.
  - unfold knn_position in H. destruct rs as [|r rs']; [injection H as <- <- <-; auto 10|]. set (rs := r :: rs') in *.
    inv_bind H. destruct (Nat.ltb _ _); [injection Hb as <- <- <-; auto 10|]. inv_bind Hb. rename a0 into rm.
    unfold at_or_throw in Ha0. destruct (alookup (l_id l) (kt_rmaps _)) as [rm'|] eqn:Er; [|discriminate]. injection Ha0 as ->.
    assert (Hw : real_weights (rp_weights rm (whitelisted a rs) (s_diff s))).
    { apply rp_weights_good; [apply whitelisted_real, Hr|eapply rmaps_real; eassumption]. }
    assert (G : forall q, real_xy q -> good_pos (mkPos (px q) (py q) (l_id l) f1 ts false INDOOR f0)).
    { intros q [[x Hx] [y Hy]]. right. exists x, y, 1. split; [split; [exact Hx|split; [exact Hy|reflexivity]]|lra]. }
    assert (Q : forall c, radiomap_point s (cf_kt k) l (rp_weights rm (whitelisted a rs) (s_diff s)) = Ok (Some c) -> real_xy c).
    { intros c. eapply radiomap_point_real; [exact Hw|apply (HR l Hl)|apply (HR l Hl)]. }
    unfold radiomap_point in Q. cbv zeta in Hb0. destruct (s_triangles s); cbn [negb] in Q.
    + destruct (alookup (l_id l) (kt_tris _)) as [[|t ts']|]; [injection Hb0 as <- <- <-; auto 10| |injection Hb0 as <- <- <-; auto 10].
      inv_bind Hb0. rewrite Ha0 in Q. injection Hb as <- <- <-. assert (X := G _ (Q _ eq_refl)). split; [exact X|]. split; [exact X|]. right. auto.
    + inv_bind Hb0. rewrite Ha0 in Q. injection Hb as <- <- <-. assert (X := G _ (Q _ eq_refl)). split; [exact X|]. split; [exact X|]. right. auto.
  - inv_bind H. destruct a as [st1 p1]. injection Hb as <- <- <-. apply zone_real in Ha; [|exact Ek|exact Hl|exact Hr].
    destruct Ha as [A B]. split; [exact Hm|]. split; [exact A|]. left. split; [reflexivity|]. right. destruct B; auto.
Qed.
Lemma outdoor_real o ts m n fl o' p : real_sensor (st_data m) -> good_pos (ou_last o) ->
  outdoor_position s col o ts m n fl = Ok (o', p) ->
  good_pos (ou_last o') /\ (p_empty p = true \/ p = ou_last o') /\ (ou_last o' = ou_last o \/ p_ts (ou_last o') = ts /\ p_empty (ou_last o') = false) /\
  (ou_last o' = ou_last o \/ M (ou_last o')).
Proof.
  intros Hs Ho H. unfold outdoor_position in H. cbv zeta in H.
  set (oo := if fl || _ then _ else o) in H.
  assert (E : ou_last oo = ou_last o) by (unfold oo; destruct (fl || _); reflexivity).
  unfold gps_of in H. unfold real_sensor in Hs. destruct (s_type (st_data m)) eqn:Et;
    try (dif H; injection H as <- <-; rewrite E; auto 10; fail).
  destruct (Hs eq_refl) as ([x Hx] & [y Hy] & [z Hz]).
  destruct (find _ _) as [l|] eqn:Ef; [|injection H as <- <-; rewrite E; auto].
  inv_bind H. destruct a as [buf valid]. apply find_some in Ef. destruct Ef as [Ef Eg].
  destruct (rl_bind (HR l Ef)) as (b & Eb & _). rewrite Eb in Hb.
  dif Hb; apply Ok_inj, pair_equal_spec in Hb; destruct Hb as [<- <-]; cbn [ou_last]; [rewrite E; auto|].
  split; [|split; [auto|split; [auto|right]]].
  2:{ destruct HM2 as [Hq|Hq]; [|apply Hq]. destruct (gps_defined b (ex_intro _ x Hx) (ex_intro _ y Hy)) as (q & Eq). rewrite Eq.
      unfold gps_on_level in Eg. rewrite Eb, Eq, Hq, orb_false_r in Eg. apply andb_true_iff in Eg. destruct Eg as [_ Eg].
      destruct (rl_box (HR l Ef)) as (x1 & y1 & Px & Py & Bx). assert (Bx' := Bx). destruct Bx' as (B1 & B2 & B3 & B4).
      unfold covered_by_box in Eg. rewrite B1, B2, B3, B4 in Eg. cbn [rx_pt px py] in Eg. rewrite !rx_leb in Eg.
      apply andb_true_iff in Eg. destruct Eg as [Eg E4]. apply andb_true_iff in Eg. destruct Eg as [Eg E3]. apply andb_true_iff in Eg. destruct Eg as [E1 E2].
      apply Rleb_true in E1, E2, E3, E4.
      eapply HM1; [exact Ef|reflexivity|reflexivity|exact Bx|split; assumption|split; assumption]. }
  destruct (gps_defined b (ex_intro _ x Hx) (ex_intro _ y Hy)) as (q & Eq). rewrite Eq.
  destruct (rt_gps HT) as (d & Ed & Pd). right. rewrite Ed. unfold fmax. rewrite Hz, rx_ltb. cbn [rx_pt px py].
  destruct (Rltb z d) eqn:El; eexists _, _, _; (split; [repeat split|]); [exact Pd|]. apply Rltb_false in El. lra.
Qed.

(** ** The client *)
Lemma fuse_real o ts pin pout st o' f : good_pos (po_in o) -> good_pos (po_out o) -> good_pos pin -> good_pos pout -> nn (p_dev (po_in o)) ->
  (s_fusegps s = true -> good_post o /\
     (p_empty pin = true \/ p_empty (po_in o) = true \/ (p_ts (po_in o) <= p_ts pin)%Z) /\
     (p_empty pout = true \/ p_empty (po_out o) = true \/ (p_ts (po_out o) <= p_ts pout)%Z)) ->
  fuse_positions s o ts pin pout st = (o', f) ->
  good_pos (po_in o') /\ good_pos (po_out o') /\ nn (p_dev (po_in o')) /\ (s_fusegps s = true -> good_post o') /\
  (p_empty f = true \/ xy_real f /\ nn (p_dev f)) /\
  po_last o' = po_last o /\ po_time o' = po_time o /\ po_sm o' = po_sm o /\
  po_in o' = (if p_empty pin then po_in o else pin) /\ po_out o' = (if p_empty pout then po_out o else pout).
Proof.
  intros Gi Go Gpi Gpo Hn Hf H.
  assert (Hpost : po_last o' = po_last o /\ po_time o' = po_time o /\ po_sm o' = po_sm o /\
    po_in o' = (if p_empty pin then po_in o else pin) /\ po_out o' = (if p_empty pout then po_out o else pout)).
  { unfold fuse_positions in H. injection H as <- <-. unfold fill_states. destruct (p_empty pin), (p_empty pout); cbn; auto. }
  destruct Hpost as (Q1 & Q2 & Q3 & Q4 & Q5).
  assert (G1 : good_pos (po_in o')) by (rewrite Q4; destruct (p_empty pin); assumption).
  assert (G2 : good_pos (po_out o')) by (rewrite Q5; destruct (p_empty pout); assumption).
  assert (G3 : nn (p_dev (po_in o'))).
  { rewrite Q4. destruct (p_empty pin) eqn:E; [exact Hn|]. apply (good_nn Gpi E). }
  assert (W : forall p, good_pos p -> p_empty p = true \/ xy_real p /\ nn (p_dev p)).
  { intros p Hp. destruct (p_empty p) eqn:E; [left; reflexivity|right; apply good_nn; assumption]. }
  split; [exact G1|]. split; [exact G2|]. split; [exact G3|].
  assert (Eb : s_fusegps s = true \/ s_fusegps s = false) by (clear; destruct (s_fusegps s); auto). destruct Eb as [Eb|Eb].
  - destruct (Hf Eb) as (F1 & F2 & F3). destruct (rt_fuse HT) as (v & pd & old & bor & HS').
    destruct (fusion HS' F1 Gpi Gpo F2 F3 H) as (P & i & t & Ei & Et & C). split; [intros _; exact P|]. split; [|auto].
    destruct C as [(_ & _ & ->)|[(_ & _ & _ & ->)|[(_ & ->)|[(_ & ->)|[(_ & ->)|[(_ & ->)|C]]]]]]; try (apply W; assumption).
    + destruct C as (_ & _ & _ & _ & _ & xi & yi & ei & xt & yt & et & A1 & A2 & C).
      destruct (_ && _).
      * destruct C as [(xi' & yi' & di' & xt' & yt' & dt' & w & B1 & B2 & B3 & B4 & B5 & _ & _ & B6 & _) _]. right.
        split; [eexists _, _; split; [exact B4|exact B5]|]. rewrite B6. eexists. split; [reflexivity|].
        destruct P as ((i' & Ei' & Pi) & (t' & Et' & Pt) & _). rewrite Ei in Ei'. rewrite Et in Et'. injection Ei' as <-. injection Et' as <-.
        assert (Hv := rs_speed0 HS'). assert (R1 : 0 <= rdelay ts (p_ts (po_in o'))) by apply Rmax_l. assert (R2 : 0 <= rdelay ts (p_ts (po_out o'))) by apply Rmax_l.
        assert (0 <= v * rdelay ts (p_ts (po_in o'))) by (apply Rmult_le_pos; assumption).
        assert (0 <= v * rdelay ts (p_ts (po_out o'))) by (apply Rmult_le_pos; assumption).
        apply Rmin_glb; lra.
      * subst f. destruct (Rltb _ _); apply W; assumption.
  - split; [intros E; exfalso; clear -E Eb; congruence|]. split; [|auto]. unfold fuse_positions in H.
    assert (Eo : fill_states s o pin pout = o') by (injection H; auto). assert (Ef : fused s (fill_states s o pin pout) ts pin pout st = f) by (injection H; auto).
    rewrite Eo in Ef. subst f. clear H Eo. unfold fused. rewrite Eb. cbv zeta. cbn [andb].
    repeat match goal with |- context [if ?b then _ else _] => destruct b; [apply W; assumption|] end. apply W; assumption.
Qed.

Definition by_ (T : Z) (p : position RX) : Prop := p_empty p = true \/ (p_ts p <= T)%Z.
Record numb (T : Z) (c : client RX) : Prop := mkNumb {
  nb_buf : Forall (fun m => real_radio (st_data m)) (b_ms (pp_buf (c_pre c)));
  nb_sen : real_sensor (st_data (pp_sensor (c_pre c)));
  nb_ou : good_pos (ou_last (c_outd c)); nb_knn : good_pos (c_knn c);
  nb_zone : is_knn s = false -> p_empty (c_knn c) = true;
  nb_in : good_pos (po_in (c_post c)); nb_out : good_pos (po_out (c_post c));
  nb_mem : mem_real (c_post c); nb_dev : mem_dev s (c_post c);
  nb_pos : xy_real (c_pos c) /\ nn (p_dev (c_pos c)); nb_map : M (ou_last (c_outd c)) /\ M (c_pos c);
  nb_fuse : s_fusegps s = true -> good_post (c_post c) /\ by_ T (po_in (c_post c)) /\ by_ T (ou_last (c_outd c)) /\ by_ T (c_knn c) /\
    (p_empty (c_knn c) = true \/ p_empty (po_in (c_post c)) = true \/ (p_ts (po_in (c_post c)) <= p_ts (c_knn c))%Z) /\
    (p_empty (po_out (c_post c)) = true \/ p_empty (ou_last (c_outd c)) = false /\ (p_ts (po_out (c_post c)) <= p_ts (ou_last (c_outd c)))%Z) }.
Lemma xy0_real : xy_real pos0. Proof. exists 0, 0. split; reflexivity. Qed.
Lemma numb0 g T : real_sensor (st_data (g_sensor g)) -> numb T (client0 g s).
Proof.
  intros Hg. destruct (rt_fuse HT) as (v & pd & old & bor & HS').
  constructor; cbn; auto 6 using good0p, xy0_real, nn0, mem_dev0, mem_real0.
  intros _. split; [apply (good0 HS')|]. unfold by_. cbn. auto 10.
Qed.
Lemma processed_real pc o f ts lm l o' p : In l (col_levels col) -> mem_real o -> mem_dev s o -> (p_empty f = true \/ xy_real f /\ nn (p_dev f)) ->
  processed s pc o f ts lm l = Ok (o', p) ->
  mem_real o' /\ mem_dev s o' /\ xy_real p /\ nn (p_dev p) /\
  (p = pos0 \/ exists x y x1 y1, p_x p = Some x /\ p_y p = Some y /\ real_box (l_box l) 0 0 x1 y1 /\ 0 <= x <= x1 /\ 0 <= y <= y1).
Proof.
  intros Hl Hm Hd Hf H. destruct Hf as [Hf|[Hf Hn]].
  - assert (D : dropped s pc l f ts) by (left; exact Hf). rewrite (processed_dropped _ _ D) in H. injection H as <- <-.
    destruct Hm as (M1 & M2 & M3 & M4). split; [repeat split; cbn; assumption|].
    split; [destruct Hd as (D1 & D2 & D3 & D4 & D5); repeat split; cbn; assumption|]. split; [apply xy0_real|]. split; [apply nn0|left; reflexivity].
  - assert (X := H). apply processed_dev in X; [|assumption..]. destruct X as [X1 X2].
    destruct (rl_box (HR l Hl)) as (x1 & y1 & Px & Py & Bx).
    assert (C0 : centimetres 0) by (exists 0%Z; lra).
    assert (I := H). eapply inside in I; try eassumption. destruct I as [I1 I2]. split; [exact I1|]. split; [exact X1|].
    destruct I2 as [[_ ->]|(x & y & Ex & Ey & Qx & Qy & _)].
    + split; [apply xy0_real|]. split; [apply nn0|left; reflexivity].
    + split; [exists x, y; auto|]. split; [exact X2|]. right. exists x, y, x1, y1. auto 10.
Qed.
Lemma processed_keeps pc o f ts lm l o' p : processed s pc o f ts lm l = Ok (o', p) ->
  po_in o' = po_in o /\ po_out o' = po_out o /\ po_idev o' = po_idev o /\ po_odev o' = po_odev o.
Proof.
  intros H. unfold processed in H. cbv zeta in H. dif H; [injection H as <- <-; cbn; auto|]. dif H; [injection H as <- <-; cbn; auto|].
  dif H; [injection H as <- <-; cbn; auto|]. inv_bind H. destruct a as [sm r]. destruct (if s_timesmooth s then _ else _) as [tm r1].
  destruct (hold_or_move _ _ _ _ _ _) as [la ex]. inv_bind Hb. injection Hb0 as <- <-. cbn. auto.
Qed.
Lemma by_mono T T' p : by_ T p -> (T <= T')%Z -> by_ T' p.
Proof. clear. intros [H|H] L; [left; exact H|right; lia]. Qed.
Lemma by_eq T p : p_ts p = T -> by_ T p.
Proof. clear. intros <-. right. apply Z.le_refl. Qed.
(** a fix: its numbers are numbers and it shows a position of the set *)
Definition sure (o : noutput RX) : Prop := real_fix o /\ exists p, p_empty p = false /\ M p /\ same_place col p o.
Lemma numb_step T e c m c' o : numb T c -> real_measurement m -> (s_fusegps s = true -> (T <= st_ts m)%Z) -> nav_step e k c m = Ok (c', o) ->
  numb (st_ts m) c' /\ (o_status o = OK -> sure o).
Proof.
  intros N Hm Ht H. destruct (nav_step_inv _ _ _ _ H) as (pre & sf & mi & pre1 & rs & det & lev & lid & outd & outp & oc & ns
    & H1 & H2 & H3 & H4 & H5 & H6 & H7 & H8 & ->).
  assert (Hcur := update_cur _ _ _ _ H1). destruct (extract_radio_keeps _ _ _ _ _ H3) as (K1 & K2 & K3 & K4).
  apply update_real in H1; [|exact Hm|apply N|apply N]. destruct H1 as [U1 U2].
  apply extract_real in H3; [|exact U1]. destruct H3 as [X1 X2].
  apply outdoor_real in H6; [|exact U2|apply N]. destruct H6 as (O1 & O2 & O3 & O4).
  assert (Mo : M (ou_last outd)) by (destruct O4 as [-> |O4]; [apply N|exact O4]).
  rewrite Hcur in *. set (ts := st_ts m) in *. clear Hcur.
  set (lid' := drop_level _ _ _ _ _) in H7.
  assert (Gp : good_pos outp) by (destruct O2 as [O2| ->]; [left; exact O2|exact O1]).
  assert (By : s_fusegps s = true -> by_ ts (ou_last outd)).
  { intros E. destruct O3 as [-> |[O3 _]]; [|apply by_eq, O3]. destruct (nb_fuse N E) as (_ & _ & B & _). eapply by_mono; [exact B|apply Ht, E]. }
  assert (Ou : s_fusegps s = true -> p_empty (po_out (c_post c)) = true \/ p_empty (ou_last outd) = false /\ (p_ts (po_out (c_post c)) <= p_ts (ou_last outd))%Z).
  { intros E. destruct (nb_fuse N E) as (_ & _ & B & _ & _ & [D|[D1 D2]]); [left; exact D|right]. specialize (Ht E).
    destruct B as [B|B]; [clear -B D1; congruence|]. destruct O3 as [-> |[O3 O5]]; [auto|]. split; [exact O5|]. rewrite O3. eapply Z.le_trans; [exact D2|]. eapply Z.le_trans; [exact B|exact Ht]. }
  assert (R : numb ts (mkClient lev (oc_knn oc) pre1 outd (oc_post oc) sf (c_states c ++ [ns]) (oc_pos oc) (oc_flag oc) (oc_ph oc) (oc_pg oc))).
  { unfold locate in H7. destruct (has_level col lid') eqn:Eh.
    - inv_bind H7. rename a into l. assert (Hl := get_level_in _ _ Ha). clear Ha. inv_bind Hb. destruct a as [kn [st inp]].
      destruct (fuse_positions s (c_post c) ts inp outp st) as [po f] eqn:Ef. inv_bind Hb0. destruct a as [[[az azv] ph] pg].
      inv_bind Hb. destruct a as [po1 p]. injection Hb0 as <-. cbn [oc_knn oc_post oc_pos oc_flag oc_ph oc_pg].
      apply indoor_real in Ha; [|exact Hl|exact X2|apply N]. destruct Ha as (I1 & I2 & I3).
      assert (Ti : s_fusegps s = true -> p_empty inp = true \/ p_empty (po_in (c_post c)) = true \/ (p_ts (po_in (c_post c)) <= p_ts inp)%Z).
      { intros E. destruct (nb_fuse N E) as (_ & B & _ & _ & D & _). specialize (Ht E).
        assert (Bt : p_empty (po_in (c_post c)) = true \/ (p_ts (po_in (c_post c)) <= ts)%Z) by exact (by_mono B Ht).
        destruct I3 as [[-> [-> |[I3|[I3 _]]]]|(-> & I3 & _)]; auto; rewrite I3; destruct Bt; auto. }
      assert (To : s_fusegps s = true -> p_empty outp = true \/ p_empty (po_out (c_post c)) = true \/ (p_ts (po_out (c_post c)) <= p_ts outp)%Z).
      { intros E. destruct O2 as [O2| ->]; [left; exact O2|]. destruct (Ou E) as [D|[_ D]]; auto. }
      apply fuse_real in Ef; [|apply N|apply N|exact I2|exact Gp|apply N|intros E; split; [apply (nb_fuse N E)|split; auto]].
      destruct Ef as (F1 & F2 & F3 & F4 & F5 & F6 & F7 & F8 & F9 & F10).
      assert (Mr : mem_real po) by (destruct (nb_mem N) as (M1 & M2 & M3 & M4); unfold mem_real; rewrite F6, F7, F8; auto).
      assert (D : mem_dev s po) by (destruct (nb_dev N) as (M1 & M2 & M3 & M4 & M5); unfold mem_dev; rewrite F6, F7, F8; auto).
      assert (Pk := processed_keeps _ _ _ _ _ _ Ha1). destruct Pk as (P1 & P2 & P3 & P4).
      apply processed_real in Ha1; [|exact Hl|exact Mr|exact D|exact F5]. destruct Ha1 as (R1 & R2 & R3 & R4 & R5).
      constructor; cbn [c_pre c_outd c_knn c_post c_pos].
      + exact X1.
      + rewrite K3. exact U2.
      + exact O1.
      + exact I1.
      + intros E. destruct I3 as [[-> _]|(_ & _ & _ & I3)]; [apply (nb_zone N E)|]. clear -E I3. congruence.
      + rewrite P1. exact F1.
      + rewrite P2. exact F2.
      + exact R1.
      + exact R2.
      + split; assumption.
      + split; [exact Mo|]. destruct R5 as [-> |(x & y & x1 & y1 & Ex & Ey & Bx & Q1 & Q2)]; [apply HM0; reflexivity|]. eapply HM1; eassumption.
      + intros E. split; [destruct (F4 E) as (A1 & A2 & A3 & A4); unfold good_post; rewrite P1, P2, P3, P4; auto|].
        destruct (nb_fuse N E) as (_ & B & Bo & Bk & D1 & D2). specialize (Ht E). rewrite P1, P2, F9, F10.
        split; [|split; [apply By, E|split; [|split]]].
        * destruct (p_empty inp) eqn:Ei; [exact (by_mono B Ht)|].
          destruct I3 as [[-> [-> |[I3|[I3 _]]]]|(-> & I3 & _)]; [exact (by_mono Bk Ht)|clear -I3 Ei; congruence|apply by_eq, I3|apply by_eq, I3].
        * destruct I3 as [[-> _]|(-> & I3 & _)]; [exact (by_mono Bk Ht)|apply by_eq, I3].
        * destruct I3 as [[-> [-> |[I3|[I3 I4]]]]|(-> & I3 & I4 & _)].
          -- destruct (p_empty (c_knn c)) eqn:Ek; [left; reflexivity|]. right. right. apply Z.le_refl.
          -- rewrite I3. exact D1.
          -- left. apply (nb_zone N I4).
          -- rewrite I4. right. right. apply Z.le_refl.
        * destruct (p_empty outp) eqn:Eo; [apply Ou, E|]. destruct O2 as [O2| ->]; [clear -O2 Eo; congruence|]. right. split; [exact Eo|apply Z.le_refl].
    - assert (Q : oc_knn oc = c_knn c /\ oc_post oc = c_post c /\ (xy_real (oc_pos oc) /\ nn (p_dev (oc_pos oc))) /\ M (oc_pos oc)).
      { destruct (p_empty outp) eqn:Eo; cbn [negb] in H7; injection H7 as <-; cbn [oc_knn oc_post oc_pos].
        - split; [reflexivity|]. split; [reflexivity|]. split; apply N.
        - split; [reflexivity|]. split; [reflexivity|]. split; [apply good_nn; assumption|]. destruct O2 as [O2| ->]; [discriminate O2|exact Mo]. }
      destruct Q as (Q1 & Q2 & Q3 & Q4). rewrite Q1, Q2. destruct N.
      constructor; cbn [c_pre c_outd c_knn c_post c_pos]; try assumption.
      + rewrite K3. exact U2.
      + split; assumption.
      + intros E. destruct (nb_fuse0 E) as (B1 & B2 & B3 & B4 & B5 & B6). specialize (Ht E). split; [exact B1|].
        split; [exact (by_mono B2 Ht)|]. split; [apply By, E|].
        split; [exact (by_mono B4 Ht)|]. split; [exact B5|]. apply Ou, E. }
  split; [exact R|]. intros Ho. destruct (p_empty (oc_pos oc)) eqn:Ee.
  { unfold output in H8. rewrite Ee in H8. injection H8 as <-. cbn in Ho. destruct (oc_stat oc); discriminate. }
  assert (Q : same_place col (oc_pos oc) o) by (eapply output_status; [apply (sd_wf HS)|exact H8|exact Ee]). split; [|exists (oc_pos oc); split; [exact Ee|]; split; [apply (nb_map R)|exact Q]].
  destruct (nb_pos R) as [(x & y & Ex & Ey) (d & Ed & Pd)]. cbn [c_pos] in Ex, Ey, Ed.
  unfold output in H8. rewrite Ee in H8. inv_bind H8. destruct a as [[la lo] al]. inv_bind Hb. injection Hb0 as <-.
  split; [|split; [|exists d; cbn; rewrite Ed; auto]].
  all: cbn [o_lat o_lon]; destruct (String.eqb _ _); [injection Ha as <- <- _; eexists; reflexivity|].
  all: inv_bind Ha; inv_bind Hb; destruct (rl_bind (HR _ (get_level_in _ _ Ha1))) as (b & Eb & Hc); rewrite Ex, Ey, Eb in Hb0;
    change (mkXY (Some x) (Some y)) with (rx_pt (x, y)) in Hb0; rewrite local_to_gps_real in Hb0 by exact Hc; injection Hb0 as <- <- _; eexists; reflexivity.
Qed.
Lemma numb_states T c l : numb T c -> numb T (with_states c l).
Proof. intros []. constructor; auto. Qed.

(** ** Histories *)
Lemma run_numb e : forall ms T c c' os, numb T c -> Forall real_measurement ms -> (s_fusegps s = true -> StronglySorted Z.le (T :: map (@st_ts _) ms)) ->
  process e k c ms = Ok (c', os) -> exists T', numb T' c' /\ (T' = T \/ In T' (map (@st_ts _) ms)) /\ Forall (fun o => o_status o = OK -> sure o) os.
Proof.
  induction ms as [|m ms IH]; intros T c c' os N Hr Hs H; [injection H as <- <-; eauto|].
  cbn [process] in H. inv_bind H. destruct a as [c1 o1]. inv_bind Hb. destruct a as [c2 o2]. injection Hb0 as <- <-.
  inversion Hr as [|? ? Hm Hr']; subst.
  assert (Hs' : s_fusegps s = true -> StronglySorted Z.le (st_ts m :: map (@st_ts _) ms) /\ (T <= st_ts m)%Z).
  { intros E. specialize (Hs E). inversion Hs as [|? ? S1 S2]; subst. cbn in S1. split; [exact S1|]. inversion S2; assumption. }
  destruct (@numb_step T e c m c1 o1 N Hm (fun E => proj2 (Hs' E)) Ha) as [N1 Q1].
  destruct (IH _ _ _ _ N1 Hr' (fun E => proj1 (Hs' E)) Ha0) as (T' & N2 & I & Q2).
  exists T'. split; [exact N2|]. split; [right; cbn; destruct I; auto|]. constructor; assumption.
Qed.
Lemma sorted_app_from T (l1 l2 : list Z) T' : StronglySorted Z.le (T :: l1 ++ l2) -> (T' = T \/ In T' l1) -> StronglySorted Z.le (T' :: l2).
Proof.
  revert T. induction l1 as [|a l1 IH]; intros T H I.
  - destruct I as [->|[]]. exact H.
  - inversion H as [|? ? H1 H2]; subst. cbn [app] in *. destruct I as [->|[<-|I]].
    + apply (IH T); [|left; reflexivity]. constructor; [inversion H1; assumption|]. inversion H2; assumption.
    + apply (IH a); [exact H1|left; reflexivity].
    + apply (IH a); [exact H1|right; exact I].
Qed.
Lemma sorted_cut T (l1 l2 : list Z) : StronglySorted Z.le (T :: l1 ++ l2) -> StronglySorted Z.le (T :: l1).
Proof.
  intros H. inversion H as [|? ? H1 H2]; subst. constructor; [|apply Forall_app in H2; apply H2].
  clear -H1. induction l1 as [|a l IH]; [constructor|]. cbn in H1. inversion H1 as [|? ? H2 H3]; subst.
  constructor; [exact (IH H2)|]. apply Forall_app in H3; apply H3.
Qed.
Lemma history_numb e : forall bs T c c' os, numb T c -> Forall (Forall real_measurement) bs ->
  (s_fusegps s = true -> StronglySorted Z.le (T :: map (@st_ts _) (List.concat bs))) ->
  navigate_all e k c bs = Ok (c', os) -> Forall (Forall (fun o => o_status o = OK -> sure o)) os.
Proof.
  induction bs as [|b bs IH]; intros T c c' os N Hr Hs H; [injection H as <- <-; auto|].
  cbn [navigate_all] in H. inv_bind H. destruct a as [c1 o1]. inv_bind Hb. destruct a as [c2 o2]. injection Hb0 as <- <-.
  inversion Hr as [|? ? Hm Hr']; subst. cbn [List.concat] in Hs. rewrite map_app in Hs.
  assert (E : exists T', numb T' c1 /\ (s_fusegps s = true -> T' = T \/ In T' (map (@st_ts _) b)) /\
    Forall (fun o => o_status o = OK -> sure o) o1).
  { destruct b as [|m b]; [injection Ha as <- <-; exists T; auto|]. rewrite navigate_process in Ha by discriminate.
    assert (Hacc : s_fusegps s = true -> accepted (m :: b) = m :: b).
    { intros Ef. apply accepted_sorted. unfold time_sorted. pose proof (sorted_cut _ _ (Hs Ef)) as X. inversion X; assumption. }
    destruct (@run_numb e (accepted (m :: b)) T (clear_states c) c1 o1) as (T' & N' & I & Q); try assumption.
    - apply (@numb_states T c []), N.
    - apply accepted_forall. exact Hm.
    - intros Ef. rewrite (Hacc Ef). exact (sorted_cut _ _ (Hs Ef)).
    - exists T'. split; [exact N'|]. split; [|exact Q]. intros Ef. rewrite (Hacc Ef) in I. exact I. }
  destruct E as (T' & N' & I & Q). constructor; [exact Q|].
  eapply IH; [exact N'|exact Hr'| |exact Ha0]. intros Ef. exact (sorted_app_from _ _ (Hs Ef) (I Ef)).
Qed.
Lemma history_real e g bs c' os : real_sensor (st_data (g_sensor g)) -> Forall (Forall real_measurement) bs ->
  (s_fusegps s = false \/ time_sorted (List.concat bs)) ->
  navigate_all e k (client0 g s) bs = Ok (c', os) -> Forall (Forall (fun o => o_status o = OK -> sure o)) os.
Proof.
  intros Hg Hr Ho H. set (T := match List.concat bs with m :: _ => st_ts m | [] => 0%Z end).
  apply history_numb with (T := T) in H; [exact H|apply numb0; exact Hg|exact Hr|].
  intros Ef. destruct Ho as [Ho|Ho]; [congruence|]. unfold time_sorted in Ho. subst T.
  destruct (List.concat bs) as [|m l]; [constructor; constructor|]. cbn [map] in *. constructor; [exact Ho|].
  constructor; [lia|]. inversion Ho; assumption.
Qed.
End Num.

(** ** The zone coefficients of a built client *)
Lemma zone_tables_in {F : Type} {NF : Num F} {SO : Sorter} (s : settings F) ls : forall m zt,
  fold_left (fun acc (l : level F) =>
      m <- acc ;; ab <- at_or_throw (alookup (l_id l) (s_levels s)) ;; Ok (mset (l_id l) ab m)) ls (Ok m) = Ok zt ->
  (forall i, In i (map (@l_id F) ls) -> alookup i zt = alookup i (s_levels s) /\ alookup i (s_levels s) <> None) /\
  (forall i, ~ In i (map (@l_id F) ls) -> alookup i zt = alookup i m).
Proof.
  induction ls as [|l ls IH]; intros m zt H.
  - injection H as <-. split; [intros i []|reflexivity].
  - cbn [fold_left bind] in H. destruct (alookup (l_id l) (s_levels s)) as [ab|] eqn:E; cbn [at_or_throw bind] in H.
    2:{ exfalso. revert H. clear. induction ls as [|l ls IH]; [discriminate|exact IH]. }
    destruct (IH _ _ H) as [I1 I2]. cbn [map]. split.
    + intros i [<-|Hi]; [|exact (I1 i Hi)].
      destruct (in_dec string_dec (l_id l) (map (@l_id F) ls)) as [Hi|Hi]; [exact (I1 _ Hi)|].
      rewrite (I2 _ Hi), alookup_mset_same, E. split; [reflexivity|discriminate].
    + intros i Hi. rewrite I2 by (intros Q; apply Hi; right; exact Q).
      apply alookup_mset_other. intros ->. apply Hi. left; reflexivity.
Qed.
Lemma built_zones {SO : Sorter} s gs k : built s gs k -> real_tuning s ->
  is_knn (cf_set k) = false -> forall l, In l (col_levels (cf_col k)) ->
  exists A B, mget (f0, f0) (l_id l) (kt_zone (cf_kt k)) = (A, B) /\ defined A /\ exists b, B = Some b /\ b <> 0.
Proof.
  intros (c & _ & HB) HT Hk l Hl. unfold mk_config in HB. inv_bind HB. inv_bind Hb. inv_bind Hb0. inv_bind Hb. injection Hb0 as <-.
  cbn [cf_set cf_col cf_kt kt_zone] in *. rewrite Hk in Ha. unfold zone_tables in Ha.
  apply zone_tables_in in Ha. destruct (proj1 Ha (l_id l) (in_map _ _ _ Hl)) as [E1 E2].
  unfold mget. rewrite E1. destruct (alookup (l_id l) (s_levels s)) as [[A B]|] eqn:E; [|congruence].
  apply alookup_In in E. exists A, B. split; [reflexivity|]. exact (rt_zones HT _ _ _ E).
Qed.

(** ** The map in degrees *)
Lemma level_geo g l la1 lo1 la2 lo2 : real_box (gl_box g) la1 lo1 la2 lo2 -> -90 < la1 < 90 -> -90 < la2 < 90 -> Rabs (lo1 - lo2) <= 180 ->
  local_level g = Ok l ->
  let b := (Rmin la1 la2, Rmin lo1 lo2) in
  l_bind l = rx_geo b /\ 0 < circ_at b /\
  real_box (l_box l) 0 0 ((Rmax lo1 lo2 - Rmin lo1 lo2) * (circ_at b / 360)) ((Rmax la1 la2 - Rmin la1 la2) * (40008000 / 360)).
Proof.
  intros Hb P1 P2 P3 H b. unfold local_level in H. inv_bind H. injection Hb0 as <-. cbn [l_bind l_box]. clear Ha.
  assert (Eb : get_binding g = rx_geo b).
  { destruct (correct_real Hb) as (A & B & _ & _). unfold get_binding. rewrite A, B. reflexivity. }
  assert (Hc : 0 < circ_at b).
  { unfold circ_at, b. cbn [fst]. apply Rmult_lt_0_compat; [lra|]. assert (Pi := PI_RGT_0).
    assert (-90 < Rmin la1 la2 < 90) by (unfold Rmin; destruct (Rle_dec la1 la2); lra).
    apply cos_gt_0.
    - apply Rmult_lt_reg_r with 180; [lra|]. unfold Rdiv. replace (Rmin la1 la2 * PI * / 180 * 180) with (Rmin la1 la2 * PI) by field. nra.
    - apply Rmult_lt_reg_r with 180; [lra|]. unfold Rdiv. replace (Rmin la1 la2 * PI * / 180 * 180) with (Rmin la1 la2 * PI) by field. nra. }
  split; [exact Eb|]. split; [exact Hc|]. rewrite Eb. destruct Hb as (A & B & C & D). unfold local_box. rewrite A, B, C, D.
  change (mkGeo (Some la1) (Some lo1)) with (rx_geo (la1, lo1)). change (mkGeo (Some la2) (Some lo2)) with (rx_geo (la2, lo2)).
  rewrite !gps_to_local_real. cbn [fst snd b].
  assert (L1 : 0 <= lo1 - Rmin lo1 lo2 <= 180) by (unfold Rmin; destruct (Rle_dec lo1 lo2); unfold Rabs in P3; destruct (Rcase_abs _); lra).
  assert (L2 : 0 <= lo2 - Rmin lo1 lo2 <= 180) by (unfold Rmin; destruct (Rle_dec lo1 lo2); unfold Rabs in P3; destruct (Rcase_abs _); lra).
  assert (N : forall u, 0 <= u <= 180 -> rnorm u = u).
  { intros u Hu. unfold rnorm. assert (E1 : Rltb 180 u = false) by (apply Rltb_false; lra). assert (E2 : Rleb u (-180) = false) by (apply Rleb_false; lra).
    rewrite E1, E2. reflexivity. }
  rewrite !N by assumption. set (cc := circ_at b / 360). assert (Hcc : 0 < cc) by (unfold cc; lra).
  assert (Q := @correct_real (mkBox (rx_pt ((lo1 - Rmin lo1 lo2) * cc, (la1 - Rmin la1 la2) * (40008000 / 360)))
     (rx_pt ((lo2 - Rmin lo1 lo2) * cc, (la2 - Rmin la1 la2) * (40008000 / 360)))) _ _ _ _ (conj eq_refl (conj eq_refl (conj eq_refl eq_refl)))).
  cbn [fst snd] in Q. change (circ_at (Rmin la1 la2, Rmin lo1 lo2)) with (circ_at b). fold cc.
  assert (M : forall u v c, 0 < c -> Rmin ((u - Rmin u v) * c) ((v - Rmin u v) * c) = 0 /\
    Rmax ((u - Rmin u v) * c) ((v - Rmin u v) * c) = (Rmax u v - Rmin u v) * c).
  { clear. intros u v c Hc. unfold Rmin at 2 3 5 6, Rmax at 2. unfold Rmin at 2. destruct (Rle_dec u v).
    - assert (0 <= (v - u) * c) by (apply Rmult_le_pos; lra). replace ((u - u) * c) with 0 by ring. rewrite Rmin_left, Rmax_right by lra. auto.
    - assert (0 <= (u - v) * c) by (apply Rmult_le_pos; lra). replace ((v - v) * c) with 0 by ring. rewrite Rmin_right, Rmax_left by lra. auto. }
  destruct (M lo1 lo2 cc Hcc) as [M1 M2]. destruct (M la1 la2 (40008000 / 360) ltac:(lra)) as [M3 M4]. rewrite M1, M2, M3, M4 in Q. exact Q.
Qed.

Lemma map_history {SO : Sorter} e (s : settings RX) gs k g bs c os la1 lo1 la2 lo2 :
  built s gs k -> NoDup (map (@gl_id RX) gs) -> ~ In ""%string (map (@gl_id RX) gs) ->
  Forall real_geolevel gs -> real_tuning s -> real_sensor (st_data (g_sensor g)) ->
  Forall (Forall real_measurement) bs -> s_fusegps s = false \/ time_sorted (List.concat bs) ->
  same_box gs la1 lo1 la2 lo2 -> s_gpsoutside s = false ->
  navigate_all e k (client0 g s) bs = Ok (c, os) ->
  Forall (Forall (fun o => o_status o = OK -> on_the_map la1 lo1 la2 lo2 o)) os.
Proof.
  intros B N1 N2 Hg Hs Hr Hb Ht (Hx & P1 & P2 & P3 & P4 & P5) Ho H. destruct (built_sound B N1 N2) as [S Es].
  assert (Hk : Forall (Forall (fun o => o_status o = OK -> In (o_level o) (map (@gl_id RX) gs))) os).
  { rewrite <- Es in B, H. eapply level_known; [exact f0_eqb|exact B| |exact H]. exists g, [], []. reflexivity. }
  assert (Z := built_zones B Hs).
  set (b := (Rmin la1 la2, Rmin lo1 lo2)). set (X := (Rmax lo1 lo2 - Rmin lo1 lo2) * (circ_at b / 360)).
  set (Y := (Rmax la1 la2 - Rmin la1 la2) * (40008000 / 360)).
  assert (Hl : forall l, In l (col_levels (cf_col k)) -> l_bind l = rx_geo b /\ 0 < circ_at b /\ real_box (l_box l) 0 0 X Y).
  { intros l Hl. assert (G : exists gl, In gl gs /\ local_level gl = Ok l).
    { clear -B Hl. destruct B as (c & Hc & Hk). unfold mk_config in Hk. inv_bind Hk. inv_bind Hb. inv_bind Hb0. inv_bind Hb. injection Hb0 as <-. cbn in Hl.
      destruct (add_levels_from gs _ _ Hc Hl) as [[]|G]. exact G. }
    destruct G as (gl & G1 & G2). eapply level_geo; try eassumption. apply (Hx gl G1). }
  set (M := fun p : position RX => p_empty p = true \/ exists x y, p_x p = Some x /\ p_y p = Some y /\ 0 <= x <= X /\ 0 <= y <= Y).
  assert (HM1 : forall l p x y x1 y1, In l (col_levels (cf_col k)) -> p_x p = Some x -> p_y p = Some y -> real_box (l_box l) 0 0 x1 y1 ->
     0 <= x <= x1 -> 0 <= y <= y1 -> M p).
  { intros l p x y x1 y1 Hi Ex Ey Bx Qx Qy. right. exists x, y. destruct (Hl l Hi) as (_ & _ & (_ & _ & E1 & E2)). destruct Bx as (_ & _ & E3 & E4).
    rewrite E1 in E3. rewrite E2 in E4. injection E3 as <-. injection E4 as <-. auto. }
  assert (HM0 : forall p : position RX, p_empty p = true -> M p) by (intros p Hp; left; exact Hp).
  rewrite <- Es in *.
  assert (G := @history_real SO k S (built_levels_real B Hg) Hs Z M HM0 HM1 (or_introl Ho) e g bs c os Hr Hb Ht H).
  clear H. revert Hk. induction G as [|os1 os G1 _ IH]; intros Hk; [constructor|]. inversion Hk as [|? ? K1 K2]; subst. constructor; [|apply IH, K2].
  clear -G1 K1 Hl N2 P1 P2 P3 P4 P5. induction G1 as [|o l Q _ IH]; [constructor|]. inversion K1 as [|? ? K3 K4]; subst. constructor; [|apply IH, K4].
  intros Hs. destruct (Q Hs) as (_ & p & Ep & Mp & (_ & El & _ & _ & Hp)). specialize (K3 Hs).
  assert (Hne : p_level p <> ""%string) by (intros E; apply N2; rewrite <- E, <- El; exact K3).
  destruct (Hp Hne) as (l0 & Il & _ & Eg). destruct (Hl l0 Il) as (Eb & Hc & _). rewrite Eb in Eg.
  destruct Mp as [Mp|(x & y & Ex & Ey & Qx & Qy)]; [congruence|]. rewrite Ex, Ey in Eg.
  change (mkXY (Some x) (Some y)) with (rx_pt (x, y)) in Eg. rewrite local_to_gps_real in Eg by lra. cbn [fst snd] in Eg.
  set (la := y * (360 / 40008000) + fst b) in *. set (lo := x * 360 / circ_at b + snd b) in *.
  assert (La : Rmin la1 la2 <= la <= Rmax la1 la2).
  { unfold la, b. cbn [fst]. unfold Y in Qy. split; [assert (0 <= y * (360 / 40008000)) by (apply Rmult_le_pos; lra); lra|].
    assert (y * (360 / 40008000) <= (Rmax la1 la2 - Rmin la1 la2) * (40008000 / 360) * (360 / 40008000)) by (apply Rmult_le_compat_r; lra). lra. }
  assert (Lo : Rmin lo1 lo2 <= lo <= Rmax lo1 lo2).
  { unfold lo. change (snd b) with (Rmin lo1 lo2). assert (Hi : 0 < 360 / circ_at b) by (apply Rdiv_lt_0_compat; lra).
    replace (x * 360 / circ_at b) with (x * (360 / circ_at b)) by (unfold Rdiv; ring). split; [assert (0 <= x * (360 / circ_at b)) by (apply Rmult_le_pos; lra); lra|].
    assert (x * (360 / circ_at b) <= X * (360 / circ_at b)) by (apply Rmult_le_compat_r; lra).
    assert (X * (360 / circ_at b) = Rmax lo1 lo2 - Rmin lo1 lo2) as E3 by (unfold X; field; lra). rewrite E3 in *. clearbody X. lra. }
  assert (R : rnorm lo = lo).
  { assert (-180 < Rmin lo1 lo2) by (unfold Rmin; destruct (Rle_dec lo1 lo2); lra). assert (Rmax lo1 lo2 <= 180) by (unfold Rmax; destruct (Rle_dec lo1 lo2); lra).
    unfold rnorm. assert (E1 : Rltb 180 lo = false) by (apply Rltb_false; lra). assert (E2 : Rleb lo (-180) = false) by (apply Rleb_false; lra).
    rewrite E1, E2. reflexivity. }
  rewrite R in Eg. injection Eg as E1 E2. exists la, lo. auto.
Qed.
