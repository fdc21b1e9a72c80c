(** Proofs of C103, C104. *)
From Coq Require Import Reals Lra Lia Psatz Sorted String.
From Verif Require Import Lib LibR NumOrd NumReal Preproc Spec_Preproc Smooth Spec_Smooth Spec_Track Pf_Track SaPos Spec_SaPos Pf_SaPos Pf_SaSmooth Pf_Radio SaDemo Spec_SaDemo.
Set Implicit Arguments.
Local Open Scope list_scope.
Local Open Scope R_scope.
Local Notation x2 x := (Some x : RX).

(** * Reading *)
Lemma read_readable {A : Type} (file : list (option A)) lines : readable file lines <-> read_lines file = lines.
Proof.
  split.
  - intros (rest & -> & H). induction lines as [|a l IH]; cbn [map app read_lines]; [|rewrite IH; reflexivity].
    destruct H as [-> | (t & ->)]; reflexivity.
  - intros <-. induction file as [|[a|] t (rest & IH & H)].
    + exists []. auto.
    + exists rest. cbn [read_lines map app]. split; [rewrite <- IH; reflexivity|exact H].
    + exists (None :: t). cbn. eauto.
Qed.
Lemma substring_here w b : substring 0 (String.length w) (w ++ b)%string = w.
Proof. induction w as [|c w IH]; cbn; [destruct b; reflexivity|f_equal; exact IH]. Qed.
Lemma substring_in a w b : substring (String.length a) (String.length w) (a ++ w ++ b)%string = w.
Proof. induction a as [|c a IH]; [exact (substring_here w b)|cbn; exact IH]. Qed.
Lemma substring_split n : forall s w, w <> ""%string -> substring n (String.length w) s = w -> mentions w s.
Proof.
  induction n as [|n IH]; intros s w Hw H.
  - exists ""%string. cbn. clear Hw. revert w H. induction s as [|c s IH]; intros [|d w] H; cbn in H; try discriminate.
    + exists ""%string. reflexivity.
    + exists (String c s). reflexivity.
    + injection H as <- H. destruct (IH w H) as (b & ->). exists b. reflexivity.
  - destruct s as [|c s]; [destruct w; [congruence|discriminate]|]. cbn in H. destruct (IH s w Hw H) as (a & b & ->).
    exists (String c a), b. reflexivity.
Qed.
Lemma line_wifi s : mentions "WIFI" s -> line_type s = WIFI.
Proof.
  intros (a & b & ->). unfold line_type. destruct (index 0 "WIFI" _) eqn:E; [reflexivity|].
  exfalso. apply (@index_correct3 0 (String.length a) "WIFI"%string _ E); [discriminate|lia|]. apply substring_in.
Qed.
Lemma line_ble s : ~ mentions "WIFI" s -> line_type s = BEACON.
Proof.
  intros H. unfold line_type. destruct (index 0 "WIFI" s) eqn:E; [|reflexivity]. exfalso. apply H.
  apply index_correct1 in E. eapply substring_split; [discriminate|exact E].
Qed.

(** * Lines as measurements *)
Definition to_meas (q : msline RX) : stamped (radio RX) := let '(ts, id, rssi, ty) := q in mkSt (mkRadio (line_type ty) id rssi f0 f0 f0) ts.
Lemma heard_accepts c q : sa_accepts c (to_meas q) -> heard c q.
Proof.
  destruct q as [[[ts id] rssi] ty]. intros H. assert (R := accepts_real H). destruct H as (H & _). cbn in *. split; [|exact R].
  destruct (index 0 "WIFI" ty) eqn:E.
  - left. split; [eapply substring_split; [discriminate|exact (index_correct1 _ _ _ _ E)]|]. unfold line_type in H. rewrite E in H.
    destruct H as [[_ H]|[H _]]; [exact H|discriminate].
  - right. split; [intros M; apply line_wifi in M; unfold line_type in M; rewrite E in M; discriminate|]. unfold line_type in H. rewrite E in H.
    destruct H as [[H _]|[_ H]]; [discriminate|exact H].
Qed.
Definition to_tx (q : txline RX) : string * (RX * RX) := let '(id, x, y, _) := q in (id, (x, y)).
Lemma placed_registered txs id x y : registered (map to_tx txs) id (x, y) <-> placed txs id x y.
Proof.
  assert (M : forall l, map fst (map to_tx l) = map (fun q => fst (fst (fst q))) l)
    by (intros l; rewrite map_map; apply map_ext; intros [[[i a] b] t]; reflexivity).
  split.
  - intros (l1 & l2 & E & N). apply map_eq_app in E. destruct E as (k1 & k2 & -> & <- & E).
    destruct k2 as [|[[[i a] b] ty] k2]; [discriminate|]. cbn [map to_tx] in E. injection E as -> -> -> <-. exists k1, ty, k2.
    rewrite M in N. auto.
  - intros (l1 & ty & l2 & -> & N). exists (map to_tx l1), (map to_tx l2). rewrite map_app. cbn [map to_tx]. rewrite M. auto.
Qed.

(** * The run *)
Section Run.
Context (c : sapcfg) (txs : list (txline RX)) (lines : list (msline RX)).
Hypothesis (Hx : Forall (fun q => let '(_, x, y, _) := q in exists X Y, x = x2 X /\ y = x2 Y) txs).
Hypothesis (Ht : Forall (fun q => (0 <= fst (fst (fst q)))%Z) lines).
Let ms := map to_meas lines.

(** all usable lines name transmitters at one place *)
Definition one_place (X Y : R) : Prop := forall ts id rssi ty x y, In (ts, id, rssi, ty) lines -> heard c (ts, id, rssi, ty) ->
  placed txs id x y -> x = x2 X /\ y = x2 Y.
(** a position the program can write *)
Definition written (p : sapos RX) : Prop := exists X Y d, p = mkSapos (x2 X) (x2 Y) (x2 d) false (sa_ts p) /\ 1 < d < 1 + exp 3 /\
  (exists q, In q lines /\ usable c txs q /\ sa_ts p = fst (fst (fst q))) /\ (forall U V, one_place U V -> X = U /\ Y = V).
Definition smoother_ok (m : sasm RX) : Prop := sm_alpha m = x2 (gain_of (9 / 10)) /\
  (sm_called m = false /\ sm_pos m = sapos0 \/
   sm_called m = true /\ (0 <= sa_ts (sm_pos m))%Z /\ written (sm_pos m) /\ exists vx vy, sm_vx m = x2 vx /\ sm_vy m = x2 vy /\
     (forall U V, one_place U V -> vx = 0 /\ vy = 0)).

Lemma smooth_written m p : smoother_ok m -> written p -> (0 <= sa_ts p)%Z ->
  smoother_ok (fst (sa_smooth m p)) /\ written (snd (sa_smooth m p)) /\ sm_pos (fst (sa_smooth m p)) = snd (sa_smooth m p) /\
  (sa_ts (sm_pos m) <= sa_ts (snd (sa_smooth m p)))%Z.
Proof.
  intros (Ha & Hm) Hp H0. pose proof (gain_of_bounds (9 / 10)) as G.
  assert (Fresh : smoother_ok (mkSasm true f0 f0 (sm_alpha m) p)).
  { split; [exact Ha|]. right. cbn [sm_called sm_pos sm_vx sm_vy sa_ts]. split; [reflexivity|]. split; [exact H0|]. split; [exact Hp|]. exists 0, 0. rewrite rx_f0. auto. }
  destruct Hm as [(Hc & E) | (Hc & H1 & Hw & vx & vy & Vx & Vy & HV)].
  - unfold sa_smooth. rewrite E, Hc. cbn [sapos0 sa_ts negb orb]. destruct (Z.ltb_spec (-1) (sa_ts p)); [|lia]. cbn [fst snd sm_pos].
    split; [exact Fresh|]. split; [exact Hp|]. split; [reflexivity|lia].
  - destruct (Z.le_gt_cases (sa_ts p) (sa_ts (sm_pos m))) as [L|L].
    { rewrite sa_stale by exact L. cbn [fst snd]. split; [|split; [exact Hw|split; [reflexivity|lia]]]. split; [exact Ha|]. right.
      repeat split; auto. exists vx, vy. auto. }
    destruct (Z.le_gt_cases (sa_ts p - sa_ts (sm_pos m)) 10000) as [S|S].
    + destruct Hw as (x & y & d & Ew & Hd & _ & HW). assert (Hp' := Hp). destruct Hp as (mx & my & d' & Ep & Hd' & Hq & HP).
      pose proof (@sa_real_step m p (gain_of (9 / 10)) x y vx vy mx my G Hc Ha) as St. cbv zeta in St.
      rewrite St; auto; [|rewrite Ew; split; reflexivity|rewrite Ep; split; reflexivity]. clear St. cbn [fst snd sm_pos sa_ts].
      set (t := IZR _ / 1000).
      assert (W : written (mkSapos (x2 (blend (gain_of (9 / 10)) (x + vx * t) mx)) (x2 (blend (gain_of (9 / 10)) (y + vy * t) my)) (sa_prec p) (sa_empty p) (sa_ts p))).
      { do 3 eexists. cbn [sa_ts]. split; [rewrite Ep; cbn; reflexivity|]. split; [exact Hd'|]. split; [exact Hq|].
        intros U V HO. destruct (HW U V HO) as [-> ->], (HP U V HO) as [-> ->], (HV U V HO) as [-> ->]. unfold blend. split; ring. }
      split; [|split; [exact W|split; [reflexivity|lia]]]. split; [reflexivity|]. right. cbn [sm_called sm_pos sm_vx sm_vy sa_ts]. split; [reflexivity|]. split; [exact H0|]. split; [exact W|].
      do 2 eexists. split; [reflexivity|]. split; [reflexivity|]. intros U V HO.
      destruct (HW U V HO) as [-> ->], (HP U V HO) as [-> ->], (HV U V HO) as [-> ->]. unfold correct_speed, Rdiv. split; ring.
    + unfold sa_smooth. destruct (Z.ltb_spec (sa_ts (sm_pos m)) (sa_ts p)); [|lia].
      assert (E : (fofZ 10 <! (fofZ (sa_ts p - sa_ts (sm_pos m)) /! fofZ 1000)) = true).
      { rewrite !rx_ofZ, rx_div by lra. rewrite rx_ltb. apply Rltb_true.
        assert (10000 < IZR (sa_ts p - sa_ts (sm_pos m))) by (apply IZR_lt; lia). lra. }
      rewrite E, orb_true_r. cbn [fst snd sm_pos]. split; [exact Fresh|]. split; [exact Hp|]. split; [reflexivity|lia].
Qed.

Lemma in_line m : In m ms -> exists q, In q lines /\ m = to_meas q.
Proof. intros H. apply in_map_iff in H. destruct H as (q & <- & H). eauto. Qed.
Lemma track_written pk : Forall (packet_ok c ms) pk -> forall e, sa_reach (map to_tx txs) e -> smoother_ok (es_sm e) ->
  Forall written (sa_track e pk) /\ StronglySorted (fun a b => (sa_ts a <= sa_ts b)%Z) (sa_track e pk) /\
  Forall (fun p => (sa_ts (sm_pos (es_sm e)) <= sa_ts p)%Z) (sa_track e pk) /\ (List.length (sa_track e pk) <= List.length pk)%nat.
Proof.
  intros HF. induction HF as [|out pk (_ & _ & _ & _ & HO) HF IH]; intros e He Hs; cbn [sa_track];
    [split; [apply Forall_nil|split; [constructor|split; [apply Forall_nil|auto]]]|].
  destruct (sa_registered e out) as [|m0 t0] eqn:ER.
  { assert (E : sa_calculate e out = (e, sapos0)) by (unfold sa_calculate; rewrite ER; reflexivity). rewrite E. cbn [sapos0 sa_empty].
    destruct (IH e He Hs) as (I1 & I2 & I3 & I4). cbn [List.length]. auto. }
  rewrite Forall_forall in HO.
  assert (Hreg : exists m p, In m out /\ registered (map to_tx txs) (r_id (st_data m)) p).
  { assert (Hm : In m0 (sa_registered e out)) by (rewrite ER; left; reflexivity). apply filter_In in Hm. destruct Hm as [Hm Hr].
    unfold amem in Hr. destruct (alookup _ _) as [p|] eqn:El; [|discriminate]. apply (sa_reach_tx He) in El. eauto. }
  assert (Hswo : strict_weak_on srssi_lt out) by (apply srssi_swo; intros o Ho; destruct (HO o Ho) as (m & v & _ & _ & _ & _ & _ & Hv & _); eauto).
  destruct (@sa_nearest RX _ (map to_tx txs) e out He Hswo Hreg) as (near & x & y & pre & post & lst & N1 & N2 & _ & N4 & (pl & N5) & _ & N7).
  cbv zeta in N7.
  assert (Hr' : sa_reach (map to_tx txs) (fst (sa_calculate e out))) by (constructor; exact He).
  rewrite N7 in Hr' |- *. cbn [fst] in Hr'.
  set (est := mkSapos x y _ false (st_ts lst)) in *.
  assert (We : written est /\ (0 <= sa_ts est)%Z).
  { destruct (HO near N1) as (mn & v & M1 & M2 & M3 & _ & _ & M6 & M7).
    destruct (HO lst) as (ml & vl & L1 & L2 & L3 & _ & L5 & _ & _); [rewrite N4; apply in_or_app; right; left; reflexivity|].
    apply in_line in M1. destruct M1 as (qn & Qn & ->). apply in_line in L1. destruct L1 as (ql & Ql & ->).
    destruct pl as [plx ply].
    assert (P2 : placed txs (r_id (st_data (to_meas qn))) x y) by (apply placed_registered; rewrite <- M3; exact N2). clear N2. rename P2 into N2.
    assert (P5 : placed txs (r_id (st_data (to_meas ql))) plx ply) by (apply placed_registered; rewrite <- L3; exact N5). clear N5. rename P5 into N5.
    assert (XY : exists X Y, x = x2 X /\ y = x2 Y).
    { destruct N2 as (l1 & ty & l2 & E & _). rewrite E in Hx. apply Forall_app in Hx. destruct Hx as [_ Hx2]. inversion Hx2; subst. assumption. }
    destruct XY as (X & Y & -> & ->). destruct (sa_precision v) as (d & Ed & Hd1 & Hd2).
    assert (Bd : d < 1 + exp 3).
    { rewrite Hd2. assert (E : sqrt (exp 6) = exp 3) by (replace 6 with (3 + 3) by ring; rewrite exp_plus; apply sqrt_square; left; apply exp_pos).
      rewrite <- E. assert (sqrt (exp ((-82 - v) / 3)) < sqrt (exp 6)); [|lra]. apply sqrt_lt_1_alt. split; [left; apply exp_pos|]. apply exp_increasing. lra. }
    rewrite Forall_forall in Ht. pose proof (Ht _ Ql) as Ht2. cbv beta in Ht2. split.
    - assert (Ep : fsqrt (fexp ((fofZ (-82) -! r_rssi (st_data near)) /! fofZ 3)) +! f1 = x2 d) by exact (eq_trans (f_equal (fun r : RX => fsqrt (fexp ((fofZ (-82) -! r) /! fofZ 3)) +! f1) M6) Ed).
      exists X, Y, d. subst est. cbn [sa_ts]. split; [f_equal; exact Ep|]. split; [lra|]. split.
      + exists ql. split; [exact Ql|]. split; [|destruct ql as [[[ts id] rssi] ty]; exact L5]. split; [apply heard_accepts, L2|].
        destruct ql as [[[ts id] rssi] ty]. cbn in N5. eauto.
      + intros U V HOne. destruct qn as [[[ts id] rssi] ty]. cbn in N2. destruct (HOne ts id rssi ty (x2 X) (x2 Y) Qn (heard_accepts _ M2) N2) as [E1 E2].
        injection E1 as ->. injection E2 as ->. auto.
    - subst est. cbn [sa_ts]. destruct ql as [[[ts id] rssi] ty]. cbn in L5, Ht2. exact (eq_ind_r (fun z => (0 <= z)%Z) Ht2 L5). }
  destruct We as [We W0]. destruct (smooth_written Hs We W0) as (S1 & S2 & S3 & S4).
  destruct (sa_smooth (es_sm e) est) as [sm r] eqn:Es. cbn [fst snd] in *.
  destruct (IH _ Hr' S1) as (I1 & I2 & I3 & I4). cbn [es_sm] in I3. rewrite S3 in I3.
  assert (Er : sa_empty r = false) by (destruct S2 as (X & Y & d & -> & _); reflexivity). rewrite Er.
  split; [apply Forall_cons; assumption|]. split; [constructor; [exact I2|exact I3]|].
  split; [apply Forall_cons; [exact S4|]|cbn [List.length]; lia]. eapply Forall_impl; [|exact I3]. cbn. intros p Hp. lia.
Qed.
End Run.

(** a packet only after a measurement newer than the last packet *)
Lemma packets_count {SO : Sorter} (c : sapcfg) l : (0 < sc_shift (sp_buf c))%Z -> forall (p : sapre RX) pk,
  (sb_cur (sr_buf p) - sb_last (sr_buf p) < sc_shift (sp_buf c))%Z ->
  sa_packets_from c p l = Ok pk -> (List.length pk <= (if (sb_cur (sr_buf p) =? -1)%Z then Nat.pred (List.length l) else List.length l))%nat.
Proof.
  intros Hsh. induction l as [|m l IH]; intros p pk Hp H; cbn [sa_packets_from] in H; [injection H as <-; cbn; destruct (_ =? _)%Z; auto|].
  assert (Hu : sr_buf (sa_update c p m) = sr_buf p \/ sr_buf (sa_update c p m) = sa_add (sr_buf p) m)
    by (unfold sa_update; cbn [sr_buf]; destruct (_ && _); auto).
  destruct (sa_extract_radio c (sa_update c p m)) as [[p' out]| | |] eqn:E; try discriminate H. cbn [bind] in H.
  destruct (sa_packets_from c p' l) as [rest| | |] eqn:Er; try discriminate H. cbn [bind] in H. apply Pf_Radio.Ok_inj in H. 
  assert (Ec : exists out0, sa_extract (sp_buf c) (sr_buf (sa_update c p m)) = (sr_buf p', out0) /\ (out0 = [] -> out = [])).
  { unfold sa_extract_radio in E. destruct (sa_extract (sp_buf c) (sr_buf (sa_update c p m))) as [b o0].
    destruct (sort_res srssi_lt (rev o0)) as [asc| | |] eqn:Ea; try discriminate E. cbn [bind] in E. apply Pf_Radio.Ok_inj, pair_equal_spec in E. destruct E as [<- <-].
    exists o0. split; [reflexivity|]. intros ->. cbn [rev] in Ea. unfold sort_res in Ea. destruct (swo_b _ _); [|discriminate Ea]. apply Pf_Radio.Ok_inj in Ea. subst asc.
    assert (X : ssort srssi_lt (@nil (stamped (radio RX))) = []) by (apply Permutation.Permutation_nil, ssort_perm; unfold strict_weak_on; repeat split; intros; contradiction). rewrite X. reflexivity. }
  destruct Ec as (out0 & Ec & Eo).
  assert (Hp' : (sb_cur (sr_buf p') - sb_last (sr_buf p') < sc_shift (sp_buf c))%Z).
  { unfold sa_extract in Ec. destruct (Z.ltb_spec (sb_cur (sr_buf (sa_update c p m)) - sb_last (sr_buf (sa_update c p m))) (sc_shift (sp_buf c))).
    - injection Ec as <- <-. exact H0.
    - apply pair_equal_spec in Ec. destruct Ec as [<- _]. cbn [sb_cur sb_last]. lia. }
  specialize (IH p' rest Hp' Er).
  assert (L : (List.length pk <= S (List.length rest))%nat) by (subst pk; destruct out; cbn [List.length]; lia).
  assert (IH' : (List.length rest <= List.length l)%nat) by (destruct (_ =? _)%Z; lia).
  destruct (Z.eqb_spec (sb_cur (sr_buf p)) (-1)) as [E1|E1]; [|cbn [List.length]; lia]. cbn [List.length Nat.pred].
  (* nothing was accepted yet: this line gives no packet *)
  assert (N : out = []).
  { apply Eo. unfold sa_extract in Ec. destruct (Z.ltb_spec (sb_cur (sr_buf (sa_update c p m)) - sb_last (sr_buf (sa_update c p m))) (sc_shift (sp_buf c))).
    - injection Ec as _ <-. reflexivity.
    - exfalso. destruct Hu as [Hu|Hu]; rewrite Hu in H0; [lia|]. unfold sa_add, sa_add_all in H0. rewrite E1 in H0. cbn in H0. lia. }
  subst out pk. exact IH'.
Qed.

Lemma position_run {SO : Sorter} (c : sapcfg) txf msf (txs : list (txline RX)) lines :
  readable txf txs -> readable msf lines -> (0 < sc_shift (sp_buf c))%Z ->
  Forall (fun q => let '(_, x, y, _) := q in exists X Y, x = x2 X /\ y = x2 Y) txs ->
  Forall (fun q => (0 <= fst (fst (fst q)))%Z) lines ->
  exists out, position_main c txf msf = Ok out /\ Forall (written c txs lines) out /\
    StronglySorted (fun a b => (sa_ts a <= sa_ts b)%Z) out /\ (List.length out <= Nat.pred (List.length lines))%nat.
Proof.
  intros R1 R2 Hsh Hx Ht. apply read_readable in R1. apply read_readable in R2.
  assert (E1 : demo_meas msf = map to_meas lines) by (unfold demo_meas; rewrite R2; apply map_ext; intros [[[a b] d] e]; reflexivity).
  assert (E2 : demo_txs txf = map to_tx txs) by (unfold demo_txs; rewrite R1; apply map_ext; intros [[[a b] d] e]; reflexivity).
  unfold position_main. rewrite E1, E2. destruct (sa_packets_real c (map to_meas lines)) as (pk & Ek & Hk). rewrite Ek. cbn [bind].
  exists (sa_track (saest0 (map to_tx txs)) pk). split; [reflexivity|].
  destruct (@track_written c txs lines Hx Ht pk Hk (saest0 (map to_tx txs))) as (T1 & T2 & _ & T4).
  - constructor.
  - split; [|left; split; reflexivity]. assert (E : lit 9 10 = x2 (9 / 10)) by (apply rx_lit; lra). unfold saest0. cbn [es_sm]. rewrite E. apply sa_alpha.
  - split; [exact T1|]. split; [exact T2|]. eapply Nat.le_trans; [exact T4|]. rewrite <- (map_length to_meas lines).
    apply (@packets_count SO c (map to_meas lines) Hsh sapre0 pk); [cbn; lia|exact Ek].
Qed.
