(** No undefined behaviour in the client, and termination over the reals (C86). *)
From Coq Require Import Lia Permutation.
From Verif Require Import Base Lib NumReal NumOrd NumFin Client Spec_Preproc Spec_Level Spec_Client Spec_Sensors Spec_UB
  Pf_Level Pf_Preproc Pf_Client Pf_ClientInv Pf_ClientThrow Pf_Sensors Pf_Angle.
Set Implicit Arguments.

(** ** Neither undefined nor running *)
Definition tame {A : Type} (x : res A) : Prop := x <> UB /\ x <> OutOfFuel.
Lemma tame_ok A (a : A) : tame (Ok a). Proof. split; discriminate. Qed.
Lemma tame_throw A : tame (Throw : res A). Proof. split; discriminate. Qed.
Lemma tame_bind A B (m : res A) (f : A -> res B) : tame m -> (forall a, m = Ok a -> tame (f a)) -> tame (bind m f).
Proof. intros [H1 H2] H. destruct m; cbn; [apply H; reflexivity|apply tame_throw|congruence|congruence]. Qed.
Lemma tame_at A (o : option A) : tame (at_or_throw o). Proof. destruct o; split; discriminate. Qed.
Lemma tame_total A (x : res A) : x <> Throw -> tame x -> exists a, x = Ok a.
Proof. intros H [H1 H2]. destruct x; try congruence. eauto. Qed.
#[local] Hint Resolve tame_ok tame_throw tame_at : tame.
Lemma tame_mapM A B (f : A -> res B) l : (forall x, In x l -> tame (f x)) -> tame (mapM f l).
Proof.
  induction l as [|x l IH]; intros H; cbn; auto with tame. apply tame_bind; [apply H; left; reflexivity|].
  intros y _. apply tame_bind; [|auto with tame]. apply IH. intros z Hz. apply H; right; exact Hz.
Qed.

Section UB.
Context {F : Type} {NF : Num F} {OF : NumOrd F} {NFI : NumFin F} {SO : Sorter}.

(** ** Radio buffer *)
Definition strong (b : buffer F) : Prop := Forall (fun m => fisfinite (r_rssi (st_data m)) = true) (b_ms b).
Definition buf_ok (s : settings F) (N : Z) (b : buffer F) : Prop :=
  s_closest s = true -> strong b /\ (Z.of_nat (List.length (b_ms b)) <= N)%Z.
Definition msr_ok (s : settings F) (m : measurement F) : Prop :=
  s_closest s = true -> s_mtype s <> RSSI -> forall r, st_data m = MRadio r -> fisfinite (r_rssi r) = true.

Lemma sum_num (f : stamped (radio F) -> F) l : Forall (fun m => fisfinite (f m) = true) l ->
  forall a, (a <=! a) = true -> let t := fold_left (fun s x => s +! f x) l a in (t <=! t) = true.
Proof.
  induction 1 as [|x l Hx _ IH]; intros a Ha; [exact Ha|]. cbn [fold_left]. apply IH, add_num; assumption.
Qed.
Lemma ok_update s (c : collector F) p m N : wf_collector c -> msr_ok s m -> buf_ok s N (pp_buf p) ->
  exists p', update_measurements s c p m = Ok p' /\ buf_ok s (N + 1) (pp_buf p').
Proof.
  intros Hw Hm Hb. destruct m as [d ts]. destruct d as [r|d|d].
  - destruct (update_radio_spec s p r ts Hw) as (p' & E & _ & _ & _ & [(Ha & _ & Eb)|(_ & _ & Eb)]);
      exists p'; (split; [exact E|]); rewrite Eb; intros Hc; destruct (Hb Hc) as [B1 B2]; (split; [|]); try exact B1; try lia.
    + unfold strong, buffer_add. cbn. apply Forall_app. split; [exact B1|]. constructor; [|constructor]. cbn.
      apply add_zero_fin. destruct (s_mtype s) eqn:Em.
      * destruct Ha as (_ & _ & Ha). rewrite Em in Ha. destruct Ha. eapply between_fin; eassumption.
      * apply (Hm Hc); [congruence|reflexivity].
      * apply (Hm Hc); [congruence|reflexivity].
    + unfold buffer_add. cbn. rewrite app_length. cbn. lia.
  - destruct (@update_other_spec F NF s c p (mkSt (MSensor d) ts)) as (p' & E & _ & Eb); [discriminate|].
    exists p'. split; [exact E|]. rewrite Eb. intros Hc. destruct (Hb Hc). split; [assumption|lia].
  - destruct (@update_other_spec F NF s c p (mkSt (MNmea d) ts)) as (p' & E & _ & Eb); [discriminate|].
    exists p'. split; [exact E|]. rewrite Eb. intros Hc. destruct (Hb Hc). split; [assumption|lia].
Qed.

Lemma extract_strong bc (b : buffer F) ls : strong b -> (Z.of_nat (List.length (b_ms b)) < 2 ^ 64)%Z ->
  forall o, In o (snd (buffer_extract bc b ls)) -> (r_rssi o <=! r_rssi o) = true.
Proof.
  intros Hs Hl o Ho. destruct (Z.lt_ge_cases (b_cur b - b_last b) (bc_shift bc)) as [L|L].
  { destruct (extract_gated bc b ls L) as (E & _). rewrite E in Ho. destruct Ho. }
  destruct (extract_averages bc b ls L) as (_ & _ & Ha). destruct (Ha _ Ho) as ((g & Hp & ->) & _ & (m & Hm & _)).
  assert (Hg : Forall (fun m => fisfinite (r_rssi (st_data m)) = true) g).
  { eapply Permutation_Forall; [exact Hp|]. apply Forall_forall. intros x Hx. apply filter_In in Hx.
    unfold strong in Hs. rewrite Forall_forall in Hs. apply Hs, Hx. }
  assert (Lg : (0 < List.length g <= List.length (b_ms b))%nat).
  { rewrite <- (Permutation_length Hp). split; [destruct (of_tx _ _); [destruct Hm|cbn; lia]|].
    unfold of_tx. clear. induction (b_ms b) as [|x l IH]; cbn; [lia|]. destruct (String.eqb _ _); cbn; lia. }
  unfold fofnat. apply mean_num; [|lia]. apply (sum_num (fun m => r_rssi (st_data m)) Hg), zero_num.
Qed.
Lemma drop_old_incl from (l : list (stamped (radio F))) : incl (drop_old from l) l /\ (List.length (drop_old from l) <= List.length l)%nat.
Proof.
  induction l as [|m l [IH1 IH2]]; cbn; [split; [apply incl_refl|lia]|]. destruct (_ <=? _)%Z; [split; [apply incl_refl|cbn; lia]|].
  split; [intros x Hx; right; apply IH1, Hx|lia].
Qed.
Lemma extract_keeps s N bc (b : buffer F) ls : buf_ok s N b -> buf_ok s N (fst (buffer_extract bc b ls)).
Proof.
  intros H Hc. destruct (H Hc) as [H1 H2].
  enough (G : incl (b_ms (fst (buffer_extract bc b ls))) (b_ms b) /\
    (List.length (b_ms (fst (buffer_extract bc b ls))) <= List.length (b_ms b))%nat).
  { destruct G as [G1 G2]. split; [|lia]. unfold strong in *. rewrite Forall_forall in *. intros x Hx. apply H1, G1, Hx. }
  assert (P := sort_id_perm (b_ms b)).
  unfold buffer_extract. destruct (_ <? _)%Z; [split; [apply incl_refl|cbn; lia]|].
  destruct (_ && _).
  { cbn. split; [intros x; apply (Permutation_in _ (Permutation_sym P))|rewrite <- (Permutation_length P); lia]. }
  destruct (_ =? _)%Z; cbn; [split; [intros x []|lia]|].
  assert (P' := sort_ts_perm (ssort id_lt (b_ms b))).
  destruct (drop_old_incl (b_cur b - bc_keep bc) (ssort ts_lt (ssort id_lt (b_ms b)))) as [D1 D2].
  split.
  - intros x Hx. apply D1 in Hx. apply (Permutation_in _ (Permutation_sym P)), (Permutation_in _ (Permutation_sym P')), Hx.
  - rewrite <- (Permutation_length P'), <- (Permutation_length P) in D2. exact D2.
Qed.
Lemma ok_extract s bc (c : collector F) p ls N : wf_collector c -> buf_ok s N (pp_buf p) -> (s_closest s = true -> N < 2 ^ 64)%Z ->
  exists p' rs, extract_radio s bc c p ls = Ok (p', rs) /\ buf_ok s N (pp_buf p').
Proof.
  intros Hw Hb HN. assert (NT := @nt_extract F NF SO s bc c p ls Hw). assert (K := extract_keeps bc ls Hb).
  assert (T : tame (extract_radio s bc c p ls)).
  { unfold extract_radio. destruct (buffer_extract bc (pp_buf p) ls) as [b out] eqn:E. apply tame_bind.
    - destruct (s_closest s) eqn:Hc.
      + destruct (Hb Hc) as [B1 B2].
        destruct (@closest_defined F NF OF SO s out) as (sel & ->); [|apply tame_ok].
        intros m Hm. apply (extract_strong bc ls B1); [specialize (HN eq_refl); lia|]. rewrite E. exact Hm.
      + unfold closest_aps. rewrite Hc. apply tame_ok.
    - intros sel _. apply tame_bind; [|auto with tame]. apply tame_mapM. intros m _. unfold set_distance.
      destruct (negb _); [|auto with tame]. destruct (find_level_by_tx _ _); [|auto with tame].
      apply tame_bind; [unfold get_level; apply tame_bind; auto with tame|]. intros l _.
      apply tame_bind; [unfold get_tx; auto with tame|auto with tame]. }
  destruct (tame_total NT T) as [[p' rs] E]. exists p', rs. split; [exact E|].
  unfold extract_radio in E. destruct (buffer_extract bc (pp_buf p) ls) as [b out]. inv_bind E. inv_bind Hb0.
  injection Hb1 as <- <-. exact K.
Qed.

(** ** GNSS *)
Lemma ok_outdoor s (c : collector F) o ts m n fl : (s_sigma s = true -> s_sigmawin s <> 0%nat) ->
  exists r, outdoor_position s c o ts m n fl = Ok r.
Proof.
  intros Hs. unfold outdoor_position. cbv zeta. set (oo := if fl || _ then _ else o). clearbody oo.
  destruct (gps_of s m) as [[[la lo] dev]|].
  - destruct (find _ _); [|eauto].
    destruct (negb (ts =? p_ts (ou_last oo))%Z && s_sigma s) eqn:E.
    + apply andb_prop in E. destruct E as [_ E].
      destruct (Nat.eqb_spec (List.length (ou_buf oo)) (s_sigmawin s)) as [E1|E1]; cbn [andb].
      * destruct (Nat.eqb_spec (List.length (ou_buf oo)) 0) as [E2|E2]; [exfalso; apply (Hs E); congruence|].
        destruct (sigma_add _ _ _ _) as [buf v]. cbn [bind]. destruct (negb _ || _); eauto.
      * destruct (sigma_add _ _ _ _) as [buf v]. cbn [bind]. destruct (negb _ || _); eauto.
    + cbn [bind]. destruct (negb _ || _); eauto.
  - destruct (_ <! _); eauto.
Qed.

(** ** Smoothing *)
Definition even_fit (p : polyfit F) : Prop := List.length (pf_x p) = List.length (pf_y p).
Definition sm_ok (s : settings F) (m : smoother F) : Prop :=
  match m with SAB _ => True | SLsq q => s_abfilter s = false /\ even_fit (lq_x q) /\ even_fit (lq_y q) end.

Lemma ok_pf_add c (p : polyfit F) x y : (pc_int c <! f0) = false -> even_fit p ->
  exists p', pf_add c p x y = Ok p' /\ even_fit p'.
Proof.
  intros Hc He. unfold pf_add. cbv zeta.
  destruct (match back (pf_y p) with Some _ => _ | None => _ end); [|eexists; split; [reflexivity|exact He]].
  assert (G : forall xs ys : list F, List.length xs = List.length ys -> exists xs' ys',
    remove_old (pc_int c) x (xs ++ [x]) (ys ++ [y]) = Ok (xs', ys') /\ List.length xs' = List.length ys').
  { induction xs as [|a xs IH]; intros [|b ys] L; cbn in L; try discriminate.
    - cbn. rewrite (sub_self (pc_int c) x Hc). exists [x], [y]. auto.
    - cbn [app remove_old]. destruct (pc_int c <! x -! a); [apply IH; congruence|].
      do 2 eexists. split; [reflexivity|]. cbn. rewrite !app_length. cbn. congruence. }
  destruct (G _ _ He) as (xs & ys & -> & L). cbn [bind]. eexists. split; [reflexivity|]. exact L.
Qed.
Lemma predict_even c (p : polyfit F) t : even_fit p -> even_fit (fst (pf_predict c p t)).
Proof. unfold pf_predict. cbv zeta. destruct (Nat.eqb _ _); intros H; exact H. Qed.
Lemma ok_smooth s al (m : smoother F) p : (s_abfilter s = false -> (s_avg s <! f0) = false) -> sm_ok s m ->
  exists m' r, sm_smooth s al m p = Ok (m', r) /\ sm_ok s m'.
Proof.
  intros Ha Hm. destruct m as [a|q]; cbn [sm_smooth].
  - destruct (ab_smooth s al a p) as [a' p']. do 2 eexists. split; [reflexivity|exact I].
  - destruct Hm as (H1 & H2 & H3). unfold lsq_smooth. destruct (negb _).
    { do 2 eexists. split; [reflexivity|]. cbn. auto. }
    cbv zeta. set (t := _ /! _).
    assert (Hc : (pc_int (lsq_conf s) <! f0) = false) by (apply Ha, H1).
    destruct (ok_pf_add (lsq_conf s) t (p_x p) Hc H2) as (fx & -> & Ex). cbn [bind].
    destruct (ok_pf_add (lsq_conf s) t (p_y p) Hc H3) as (fy & -> & Ey). cbn [bind].
    assert (Px := predict_even (lsq_conf s) t Ex). assert (Py := predict_even (lsq_conf s) t Ey).
    destruct (pf_predict _ fx t) as [gx xs], (pf_predict _ fy t) as [gy ys]. cbn [fst] in *.
    destruct (_ && _); cbn [bind]; do 2 eexists; (split; [reflexivity|]); cbn; auto.
    unfold even_fit; cbn; auto.
Qed.
Lemma tame_vertex P (g : graph P) i : tame (get_vertex g i).
Proof. unfold get_vertex. destruct (has_vertex g i); [|auto with tame]. destruct (nth_error _ _); auto with tame. Qed.
Lemma tame_projection (l : level F) p : tame (graph_projection (l_graph l) p).
Proof.
  unfold graph_projection. apply tame_bind; [|auto with tame].
  assert (G : forall es (r : res (XY F * F)), tame r ->
    tame (fold_left (fun (acc : res (XY F * F)) e =>
         '(p0, d0) <- acc ;;
         u <- get_vertex (l_graph l) (fst e) ;;
         v <- get_vertex (l_graph l) (snd e) ;;
         let p1 := proj_edge (snd u) (snd v) p in
         let d := get_dist (px p) (py p) (px p1) (py p1) in
         Ok (if fisnan d0 || (d <! d0) then (p1, d) else (p0, d0))) es r)).
  { induction es as [|e es IH]; intros r Hr; [exact Hr|]. cbn [fold_left]. apply IH. apply tame_bind; [exact Hr|].
    intros [p0 d0] _. apply tame_bind; [apply tame_vertex|]. intros u _. apply tame_bind; [apply tame_vertex|auto with tame]. }
  apply G, tame_ok.
Qed.
Definition smooth_ok (s : settings F) : Prop := s_usesmooth s = true -> s_abfilter s = false -> (s_avg s <! f0) = false.
Lemma tame_processed s c o f ts lm (l : level F) : smooth_ok s -> sm_ok s (po_sm o) ->
  tame (processed s c o f ts lm l) /\
  forall o' p, processed s c o f ts lm l = Ok (o', p) -> sm_ok s (po_sm o').
Proof.
  intros Hs Hm. unfold processed. cbv zeta. cbn [po_last po_sm po_time po_idev po_odev po_in po_out].
  assert (R : forall b : bool, sm_ok s (if b then sm_reset (po_sm o) f else po_sm o)).
  { intros []; [|exact Hm]. destruct (po_sm o) as [a|q]; [exact I|]. destruct Hm as (H1 & H2 & H3).
    cbn. unfold even_fit. cbn. auto. }
  assert (B : forall al, exists sm r, (if s_usesmooth s
     then sm_smooth s al (if negb (String.eqb (p_level (po_last o)) (p_level f)) then sm_reset (po_sm o) f else po_sm o) f
     else Ok (po_sm o, f)) = Ok (sm, r) /\ sm_ok s sm).
  { intros al. destruct (s_usesmooth s) eqn:Eu; [|exists (po_sm o), f; auto]. apply ok_smooth; [exact (Hs Eu)|apply R]. }
  destruct (p_empty f); [split; [apply tame_ok|]; intros o' p E; injection E as <- <-; exact Hm|].
  destruct (negb (inside_map _ _ _)); [split; [apply tame_ok|]; intros o' p E; injection E as <- <-; exact Hm|].
  destruct (_ <=? _)%Z; [split; [apply tame_ok|]; intros o' p E; injection E as <- <-; exact Hm|].
  destruct (B (l_allowed l)) as (sm & r & -> & Hsm). cbn [bind].
  destruct (if s_timesmooth s then _ else _) as [tm r1]. destruct (hold_or_move _ _ _ _ _ _) as [last extr].
  split.
  - apply tame_bind; [|auto with tame]. unfold project. destruct (s_graphproj s); [|auto with tame].
    apply tame_bind; [apply tame_projection|auto with tame].
  - intros o' p E. inv_bind E. injection Hb as <- <-. exact Hsm.
Qed.

(** ** Position estimation *)
Lemma tame_indoor k mp (l : level F) ts rs : tame (indoor k mp l ts rs).
Proof.
  unfold indoor. destruct (is_knn _).
  - unfold knn_position. destruct rs as [|r rs]; [auto with tame|]. apply tame_bind; [auto with tame|]. intros ids _. cbv zeta.
    destruct (Nat.ltb _ _); [auto with tame|]. apply tame_bind; [auto with tame|]. intros rm _. destruct (s_triangles _).
    + destruct (alookup _ _) as [[|t ts']|]; auto with tame. apply tame_bind; [|auto with tame].
      unfold position_in_triangle. cbv zeta. destruct (_ <! feps); [auto with tame|]. destruct (_ || _); [auto with tame|].
      assert (G : forall rid, tame (get_rp (l_rm l) rid)) by (intros rid; unfold get_rp; apply tame_bind; auto with tame).
      apply tame_bind; [apply G|]. intros p1 _. apply tame_bind; [apply G|]. intros p2 _. apply tame_bind; [apply G|]. auto with tame.
    + apply tame_bind; [|auto with tame]. unfold k_heaviest_average. cbn [firstn fold_left]. cbv zeta. cbn [bind].
      destruct (_ <! _); auto with tame.
  - apply tame_bind; [|auto with tame]. unfold zone_position. destruct rs as [|r rs]; [auto with tame|].
    destruct (level_radio l (r :: rs)) as [|m0 rest]; [auto with tame|]. cbv zeta. apply tame_bind.
    + destruct (contains_tx _ _); [|auto with tame]. apply tame_bind; [unfold get_tx; auto with tame|auto with tame].
    + intros p _. destruct (mget _ _ _); auto with tame.
Qed.
Lemma fuse_sm s o ts (pin pout : position F) st : po_sm (fst (fuse_positions s o ts pin pout st)) = po_sm o.
Proof.
  unfold fuse_positions, fill_states. cbn [fst]. destruct (p_empty pin), (p_empty pout); reflexivity.
Qed.
Lemma tame_locate k c ts lid rs outp mi : smooth_ok (cf_set k) -> sm_ok (cf_set k) (po_sm (c_post c)) ->
  c_prevgyro c = None ->
  tame (locate k c ts lid rs outp mi) /\
  forall oc, locate k c ts lid rs outp mi = Ok oc -> sm_ok (cf_set k) (po_sm (oc_post oc)).
Proof.
  intros Hs Hm Hg. unfold locate. destruct (has_level _ _).
  2: { destruct (negb _); (split; [auto with tame|]); intros oc E; injection E as <-; exact Hm. }
  assert (G : forall kn st inp l po f, fuse_positions (cf_set k) (c_post c) ts inp outp st = (po, f) ->
    let rest := '(az, azv, ph, pg) <- heading_step (c_prevhead c) (c_prevgyro c) f mi;;
      '(po, p) <- processed (cf_set k) (cf_post k) po f ts (mi_lastTs mi) l;;
      Ok (mkOc kn po p (negb (p_empty inp)) ph pg
           (if s_enu (cf_set k) then fopp (if azv then az else fopp (p_head f -! fpi2)) +! fpi2
            else if azv then az else fopp (p_head f -! fpi2)) st) in
    tame rest /\ forall oc, rest = Ok oc -> sm_ok (cf_set k) (po_sm (oc_post oc))).
  { intros kn st inp l po f E rest.
    assert (Hpo : sm_ok (cf_set k) (po_sm po)).
    { assert (X := fuse_sm (cf_set k) (c_post c) ts inp outp st). rewrite E in X. cbn in X. rewrite X. exact Hm. }
    destruct (@tame_processed (cf_set k) (cf_post k) po f ts (mi_lastTs mi) l Hs Hpo) as [T1 T2].
    unfold rest. rewrite Hg. split.
    - apply tame_bind; [unfold heading_step; cbv zeta; destruct (_ && _); auto with tame|].
      intros [[[az azv] ph] pg] _. apply tame_bind; [exact T1|]. intros [po1 p1] _. auto with tame.
    - intros oc X. inv_bind X. destruct a as [[[az azv] ph] pg]. inv_bind Hb. destruct a as [po1 p1].
      injection Hb0 as <-. eapply T2; exact Ha0. }
  split.
  - apply tame_bind; [unfold get_level; apply tame_bind; auto with tame|]. intros l _.
    apply tame_bind; [apply tame_indoor|]. intros [kn [st inp]] _.
    destruct (fuse_positions _ _ _ _ _ _) as [po f] eqn:Ef. apply (G kn st inp l po f Ef).
  - intros oc X. inv_bind X. rename a into l. inv_bind Hb. destruct a as [kn [st inp]].
    destruct (fuse_positions _ _ _ _ _ _) as [po f] eqn:Ef. apply (proj2 (G kn st inp l po f Ef) _ Hb0).
Qed.

(** ** Loops with a bound: results that do not depend on it, or that are there
    for every bound *)
Record modality := mkMod {
  md : forall A : Type, (nat -> res A) -> Prop;
  md_ext : forall A (c d : nat -> res A), (forall n, c n = d n) -> md c -> md d;
  md_ok : forall A (a : A), md (fun _ => Ok a);
  md_bind : forall A B (c : nat -> res A) (f : A -> nat -> res B),
    md c -> (forall a n, c n = Ok a -> md (f a)) -> md (fun n => bind (c n) (fun a => f a n));
  md_mpp : forall x : F, md (fun n => to_mpp n x) }.

Section Mod.
Variable M : modality.
Lemma md_const A (x : res A) : (exists a, x = Ok a) -> md M (fun _ => x).
Proof. intros [a ->]. apply md_ok. Qed.

Lemma md_cf k (c : cfilter F) m : md M (fun n => cf_update n k c m).
Proof.
  unfold cf_update. destruct (s_type _); try (apply (md_ok M)).
  cbv zeta. match goal with |- context [let '(q, ie) := ?x in _] => destruct x as [q ie] end.
  apply (@md_bind M _ _ (fun n => magnetic_azimuth n q (s_val (st_data m)))
    (fun az _ => Ok (mkCF (st_ts m) (cf_gyro c) (cf_devts c) ie q az (cf_devaz c) (cf_gyroh c) (low_pass (cf_magn c) m) (cf_acc c)))).
  - unfold magnetic_azimuth. apply (md_mpp M).
  - intros. apply (md_ok M).
Qed.
Lemma md_sf s (f : sfusion F) m ts : md M (fun n => sf_step n s f m ts).
Proof.
  unfold sf_step. destruct (ped_step_spec (sf_ped f) m) as (p1 & p2 & ss & E1 & E2 & _).
  unfold ped_step in E2. rewrite E1 in E2. cbn [bind] in E2. rewrite E1. cbn [bind]. rewrite E2. cbn [bind].
  apply (@md_bind M _ _ (fun n => cf_update n (cf_conf s) (sf_cf f) m) (fun cf _ => _)); [apply md_cf|].
  intros cf _ _. cbv zeta. match goal with |- context [let '(az, azv) := ?x in _] => destruct x as [az azv] end.
  destruct ss; apply (md_ok M).
Qed.
Lemma md_output svd k p st az (rs : list (radio F)) : sound k -> fine (cf_col k) p -> s_altitude (cf_set k) = false ->
  md M (fun n => output (mkEnv n svd) k p st az rs).
Proof.
  intros S Hf Ha. unfold output. destruct (p_empty p) eqn:E; [apply (md_ok M)|].
  assert (G : forall la lo al, md M (fun n => o <- to_mpp n az ;; Ok (mkOut OK (p_level p) la lo al (Some (p_dev p)) (Some o) (Some (p_prov p))))).
  { intros la lo al. apply (@md_bind M _ _ (fun n => to_mpp n az) (fun o _ => _)); [apply (md_mpp M)|]. intros. apply (md_ok M). }
  destruct (String.eqb _ _); [apply G|]. destruct Hf as [_ [Hf|Hf]]; [congruence|].
  unfold known_level in Hf. apply in_map_iff in Hf. destruct Hf as (l & El & Hl). rewrite <- El in *.
  destruct (get_level_wf _ (sd_wf S) Hl) as [_ X]. rewrite X, Ha. apply G.
Qed.

Record calm (k : config F) (N : Z) (c : client F) : Prop := mkCalm {
  ca_inv : inv k c; ca_lev : lev_inv k (c_lev c);
  ca_buf : buf_ok (cf_set k) N (pp_buf (c_pre c)); ca_sm : sm_ok (cf_set k) (po_sm (c_post c)) }.

Lemma md_step svd k N c m : sound k -> sane_settings (cf_set k) -> calm k N c -> msr_ok (cf_set k) m -> (s_closest (cf_set k) = true -> N + 1 < 2 ^ 64)%Z ->
  md M (fun n => nav_step (mkEnv n svd) k c m) /\
  forall n c' o, nav_step (mkEnv n svd) k c m = Ok (c', o) -> calm k (N + 1) c'.
Proof.
  intros S (T1 & T2 & T3) C Hm HN.
  destruct (ok_update (c_pre c) (sd_wf S) Hm (ca_buf C)) as (pre & Eu & Bu).
  split.
  - unfold nav_step. cbn [e_fuel]. cbv zeta. rewrite Eu. cbn [bind].
    apply (@md_bind M _ _ (fun n => sf_step n (cf_set k) (c_sf c) (pp_sensor pre) (pp_cur pre)) (fun a n => let '(sf, mi) := a in _)); [apply md_sf|].
    intros [sf mi] _ _.
    destruct (@ok_extract (cf_set k) (cf_buf k) (cf_col k) pre (mi_lastTs mi) (N + 1) (sd_wf S) Bu HN) as (pre1 & rs & -> & _). cbn [bind].
    destruct (@detect_usable F NF OF k rs S) as (d & -> & Hd). cbn [bind].
    destruct (level_step _ _ _ _) as [lev lid] eqn:El. destruct (level_usable _ _ (ca_lev C) Hd El) as [_ U].
    destruct (@ok_outdoor (cf_set k) (cf_col k) (c_outd c) (pp_cur pre) (pp_sensor pre) (pp_nmea pre) (c_flag c) T1) as [[outd outp] Eo].
    rewrite Eo. cbn [bind].
    destruct (outdoor_fine _ _ _ _ _ _ (iv_outd (ca_inv C)) Eo) as [_ G].
    set (lid' := drop_level _ _ _ _ _).
    assert (U' : usable k lid').
    { unfold lid', drop_level. destruct (_ && _ && _); [apply usable_empty|]. destruct (_ <=? _)%Z; [apply usable_empty|exact U]. }
    destruct (@tame_locate k c (pp_cur pre) lid' rs outp mi T2 (ca_sm C) (iv_gyro (ca_inv C))) as [TL _].
    destruct (tame_total (@nt_locate F NF SO k c (pp_cur pre) lid' rs outp mi S U') TL) as [oc Eoc]. rewrite Eoc. cbn [bind].
    destruct (locate_fine _ _ _ _ f0_eqb (ca_inv C) G Eoc) as (_ & _ & Hp & _).
    apply (@md_bind M _ _ (fun n => output (mkEnv n svd) k (oc_pos oc) (oc_stat oc) (oc_azim oc) rs) (fun o _ => _));
      [apply md_output; assumption|]. intros. apply (md_ok M).
  - intros n c' o H. constructor.
    + eapply inv_step; [exact f0_eqb|exact (ca_inv C)|exact H].
    + eapply lev_step; [exact S|exact (ca_lev C)|exact H].
    + destruct (nav_step_inv _ _ _ _ H) as (pre' & sf & mi & pre1 & rs & det & lev & lid & outd & outp & oc & ns
        & H1 & H2 & H3 & H4 & H5 & H6 & H7 & H8 & ->). cbn [c_pre].
      rewrite Eu in H1. injection H1 as <-.
      destruct (@ok_extract (cf_set k) (cf_buf k) (cf_col k) pre (mi_lastTs mi) (N + 1) (sd_wf S) Bu HN) as (pre2 & rs2 & E2 & B2).
      rewrite H3 in E2. injection E2 as <- <-. exact B2.
    + destruct (nav_step_inv _ _ _ _ H) as (pre' & sf & mi & pre1 & rs & det & lev & lid & outd & outp & oc & ns
        & H1 & H2 & H3 & H4 & H5 & H6 & H7 & H8 & ->). cbn [c_post].
      refine (proj2 (@tame_locate k c _ _ _ _ _ T2 (ca_sm C) (iv_gyro (ca_inv C))) _ H7).
Qed.
Lemma calm_more k N N' c : (N <= N')%Z -> calm k N c -> calm k N' c.
Proof. intros H []. constructor; auto. intros Hc. destruct (ca_buf0 Hc). split; [assumption|lia]. Qed.

Lemma md_process svd k ms : forall N c, sound k -> sane_settings (cf_set k) -> calm k N c -> Forall (msr_ok (cf_set k)) ms ->
  (s_closest (cf_set k) = true -> N + Z.of_nat (List.length ms) < 2 ^ 64)%Z ->
  md M (fun n => process (mkEnv n svd) k c ms) /\
  forall n c' os, process (mkEnv n svd) k c ms = Ok (c', os) -> calm k (N + Z.of_nat (List.length ms)) c'.
Proof.
  induction ms as [|m ms IH]; intros N c S T C Hm HN.
  - split; [apply (md_ok M)|]. intros n c' os X. injection X as <- <-. cbn. rewrite Z.add_0_r. exact C.
  - cbn [process]. inversion Hm as [|? ? Hm1 Hm2]; subst. cbn [List.length] in HN.
    destruct (md_step svd S T C Hm1) as [G1 G2]; [intros Hc; specialize (HN Hc); lia|]. split.
    + apply (@md_bind M _ _ (fun n => nav_step (mkEnv n svd) k c m) (fun a n => let '(c1, o) := a in _)); [exact G1|].
      intros [c1 o] n E. specialize (G2 _ _ _ E).
      destruct (IH _ _ S T G2 Hm2) as [I1 _]; [intros Hc; specialize (HN Hc); lia|].
      apply (@md_bind M _ _ (fun n => process (mkEnv n svd) k c1 ms) (fun a _ => let '(c2, os) := a in _)); [exact I1|].
      intros [c2 os] _ _. apply (md_ok M).
    + intros n c' os X. inv_bind X. destruct a as [c1 o1]. inv_bind Hb. destruct a as [c2 o2]. injection Hb0 as <- <-.
      specialize (G2 _ _ _ Ha). destruct (IH _ _ S T G2 Hm2) as [_ I2]; [intros Hc; specialize (HN Hc); lia|].
      specialize (I2 _ _ _ Ha0). eapply calm_more; [|exact I2]. cbn [List.length]. lia.
Qed.
Lemma accepted_length before (ms : list (measurement F)) : (List.length (accepted_after before ms) <= List.length ms)%nat.
Proof.
  revert before. induction ms as [|m ms IH]; intros before; cbn; [lia|]. specialize (IH (before ++ [m])).
  destruct (forallb _ _); cbn; lia.
Qed.
Lemma calm_clear k N c : calm k N c -> calm k N (clear_states c).
Proof. intros []. constructor; auto. apply (inv_states []), ca_inv0. Qed.
Lemma md_history svd k bs : forall N c, sound k -> sane_settings (cf_set k) -> calm k N c ->
  Forall (msr_ok (cf_set k)) (List.concat bs) -> (s_closest (cf_set k) = true -> N + Z.of_nat (List.length (List.concat bs)) < 2 ^ 64)%Z ->
  md M (fun n => navigate_all (mkEnv n svd) k c bs).
Proof.
  induction bs as [|b bs IH]; intros N c S T C Hm HN; [apply (md_ok M)|]. cbn [navigate_all].
  cbn [List.concat] in Hm, HN. apply Forall_app in Hm. destruct Hm as [Hm1 Hm2]. rewrite app_length in HN.
  apply (@md_bind M _ _ (fun n => navigate (mkEnv n svd) k c b) (fun a n => let '(c1, o) := a in _)).
  - destruct b as [|m b]; [apply (md_ok M)|].
    assert (A := accepted_length [] (m :: b)). fold (accepted (m :: b)) in A.
    eapply (md_ext M); [intros n; symmetry; apply navigate_process; discriminate|].
    apply (@md_process svd k (accepted (m :: b)) N (clear_states c) S T (calm_clear C) (accepted_forall Hm1)). intros Hc; specialize (HN Hc); lia.
  - intros [c1 o] n E.
    assert (C1 : calm k (N + Z.of_nat (List.length b)) c1).
    { destruct b as [|m b]; [injection E as <- <-; eapply calm_more; [|exact C]; cbn; lia|].
      rewrite navigate_process in E by discriminate.
      assert (A := accepted_length [] (m :: b)). fold (accepted (m :: b)) in A.
      destruct (@md_process svd k (accepted (m :: b)) N (clear_states c) S T (calm_clear C) (accepted_forall Hm1)) as [_ P]; [intros Hc; specialize (HN Hc); lia|].
      eapply calm_more; [|exact (P _ _ _ E)]. lia. }
    apply (@md_bind M _ _ (fun n => navigate_all (mkEnv n svd) k c1 bs) (fun a _ => let '(c2, os) := a in _)).
    + eapply IH; [exact S|exact T|exact C1|exact Hm2|intros Hc; specialize (HN Hc); lia].
    + intros [c2 os] _ _. apply (md_ok M).
Qed.
End Mod.

Lemma calm0 k g N : (0 <= N)%Z -> calm k N (client0 g (cf_set k)).
Proof.
  intros HN. constructor; [apply inv0|apply lev_inv0| |].
  - intros _. split; [constructor|exact HN].
  - cbn. destruct (s_abfilter (cf_set k)) eqn:E; cbn; [exact I|]. unfold even_fit; cbn; auto.
Qed.
Lemma md_all (M : modality) svd s gs k g bs : built s gs k -> NoDup (map (@gl_id F) gs) -> ~ In ""%string (map (@gl_id F) gs) ->
  sane_settings s -> sane_log s bs -> md M (fun n => navigate_all (mkEnv n svd) k (client0 g s) bs).
Proof.
  intros Hb Hn He Hs Hl. destruct (built_sound Hb Hn He) as [S E]. subst s.
  apply (@md_history M svd k bs 0); [exact S|exact Hs|apply calm0; lia| |].
  - apply Forall_forall. intros m Hm Hc Ht r Er. destruct (Hl Hc) as [_ H]. exact (H Ht m r Hm Er).
  - intros Hc. destruct (Hl Hc) as [H _]. lia.
Qed.

(** every bound: a result, or the bound is reached *)
Lemma mpp_or_loop n (x : F) : result_or_loop (to_mpp n x).
Proof.
  assert (D : forall n (x : F), result_or_loop (mpp_down n x)).
  { clear. induction n as [|n IH]; intros x; cbn; [right; reflexivity|]. destruct (_ <=! _); [apply IH|left; eauto]. }
  assert (U : forall n (x : F), result_or_loop (mpp_up n x)).
  { clear. induction n as [|n IH]; intros x; cbn; [right; reflexivity|]. destruct (_ <! _); [apply IH|left; eauto]. }
  unfold to_mpp. destruct (D n x) as [[y ->]| ->]; cbn; [apply U|right; reflexivity].
Qed.
Definition each_bound : modality.
Proof.
  refine (@mkMod (fun A c => forall n, result_or_loop (c n)) _ _ _ _).
  - intros A c d E H n. rewrite <- E. apply H.
  - intros A a n. left. eauto.
  - intros A B c f H1 H2 n. destruct (H1 n) as [[a E]|E].
    + rewrite E. cbn. apply (H2 a n E).
    + rewrite E. right. reflexivity.
  - intros x n. apply mpp_or_loop.
Defined.
Lemma no_ub e s gs k g bs : built s gs k -> NoDup (map (@gl_id F) gs) -> ~ In ""%string (map (@gl_id F) gs) ->
  sane_settings s -> sane_log s bs -> result_or_loop (navigate_all e k (client0 g s) bs).
Proof.
  intros Hb Hn He Hs Hl. destruct e as [n svd]. exact (md_all each_bound svd g Hb Hn He Hs Hl n).
Qed.
End UB.

(** ** Over the reals the loops stop *)
Section Total.
Context {SO : Sorter}.
Definition settled : @modality RX num_real.
Proof.
  refine (@mkMod RX num_real (fun A c => exists a n0, forall n, (n0 <= n)%nat -> c n = Ok a) _ _ _ _).
  - intros A c d E (a & n0 & H). exists a, n0. intros n Hn. rewrite <- E. apply H, Hn.
  - intros A a. exists a, 0%nat. reflexivity.
  - intros A B c f (a & n0 & H) H2. destruct (H2 a n0 (H n0 (le_n _))) as (b & n1 & H1).
    exists b, (Nat.max n0 n1). intros n Hn. rewrite H by lia. cbn. apply H1. lia.
  - intros [x|].
    + destruct (to_mpp_terminates x) as [n0 H]. destruct (H n0 (le_n _)) as [y Ey].
      exists y, n0. intros n Hn. destruct (H n Hn) as [z Ez]. rewrite Ez.
      f_equal. exact (to_mpp_unique _ _ _ Ez Ey).
    + exists None, 1%nat. intros n Hn. destruct n as [|n]; [lia|]. reflexivity.
Defined.
Lemma total_real svd s gs k g bs : built s gs k -> NoDup (map (@gl_id RX) gs) -> ~ In ""%string (map (@gl_id RX) gs) ->
  sane_settings s -> sane_log s bs ->
  exists r n0, forall n, (n0 <= n)%nat -> navigate_all (mkEnv n svd) k (client0 g s) bs = Ok r.
Proof. intros Hb Hn He Hs Hl. exact (md_all settled svd g Hb Hn He Hs Hl). Qed.
End Total.
