(** The program on well-formed files has no undefined behaviour (C86). *)
From Coq Require Import Lia.
From Verif Require Import Triangulation Spec_Tri Pf_Tri NumReal NumOrd NumFin NumFloat Client Spec_Client Spec_UB Pf_ClientUB Driver Spec_Driver Pf_Driver Pf_ToolsH Pf_ToolsF P_Json.
From Verif Require Export Pf_DocF.
Set Implicit Arguments.
Local Open Scope string_scope.
Local Open Scope list_scope.

Section Prog.
Context {F : Type} {NF : Num F} {NO : NumOrd F} {NN : NumFin F} {SO : Sorter}.
Variable geom : list (poly F) -> box F * (F -> F -> bool).
Variable ord : list (Z * Geo F) -> list (Z * Geo F).
Hypothesis O : any_order ord.
Variables (e : env F) (g : garbage F) (h : F).

Lemma settings_altitude setf c ls s : settings_file setf c ls -> create_settings setf = Ok s -> s_altitude s = false.
Proof.
  intros (top & lj & rest & -> & Kt & L1 & L2 & Le & Kc & Rc) E. apply (C82_no_altitude (JObj top)); [|exact E].
  intros top' c' rest' Et Hc. injection Et as <-.
  pose proof (@in_alookup_nodup _ _ _ _ (keys_sorted_nodup Kt) Hc). pose proof (@in_alookup_nodup _ _ _ _ (keys_sorted_nodup Kt) L2).
  assert (X : JArr (JObj c' :: rest') = JArr (JObj c :: rest)) by congruence. injection X as -> _. exact Kc.
Qed.

Lemma program_ub fuel mapf setf logf xs c ls ms n : map_file fuel mapf xs -> settings_file setf c ls -> log_file logf ms ->
  (0 < n)%Z -> (Z.of_nat (List.length ms) + n < 2 ^ 64)%Z -> (List.length ms <= fuel)%nat ->
  (forall a, ~ In (JLevel "" a) xs) ->
  exists gs s, parse_geojson geom fuel ord xs = Ok gs /\ Forall (has_setting c s) rows /\ s_altitude s = false /\
    (forall lv, (exists ab, alookup lv (s_levels s) = Some ab) <-> In lv (map fst ls)) /\
    (s_algo s <> KNN -> (forall lv a, In (JLevel lv a) xs -> In lv (map fst ls)) ->
     (forall x, In x [s_avg s; s_shift s; s_stopdetect s; s_deadreck s; s_stopupdate s] -> exists z, ftoZ (fofZ 1000 *! x) = Some z) ->
     exists k, built s gs k) /\
    forall k, built s gs k -> sane_settings s -> sane_log s [ms] ->
      result_or_loop (program geom ord fuel e g h mapf logf setf n).
Proof.
  intros Hm Hs Hl H1 H2 H3 He.
  destruct (stages geom O Hm Hs Hl) as (gs & s & col & E1 & E2 & E3 & Hr & E4 & E5 & N & Ids & Ids' & Lv).
  exists gs, s. split; [exact E2|]. split; [exact Hr|]. split; [exact (settings_altitude Hs E3)|]. split; [exact Lv|]. split.
  { intros Hk Ha Hf. destruct (C83_client s col Hk) as (_ & [_ X] & _).
    destruct X as [k K]; [split; [|exact Hf]|exists k, col; auto].
    intros l Hx. apply Lv. destruct (proj1 (Ids (l_id l)) (in_map _ _ _ Hx)) as [a Hi]. exact (Ha _ _ Hi). }
  intros k (col' & C' & K) Ss Sl. assert (col' = col) by congruence. subst col'.
  unfold program. rewrite E1, E3. cbn [bind]. rewrite E4. cbn [bind]. rewrite K, E5. cbn [bind].
  destruct (@chunks_pos _ n ms fuel H1 H2 H3) as (bs & E & Cu). unfold run_driver. rewrite E. cbn [bind].
  pose proof (@drive_outputs F NF SO e k h bs (client0 g s) 0%Z pdr0 (cut_nonempty Cu)) as D.
  assert (R : result_or_loop (navigate_all e k (client0 g s) bs)).
  { apply (@no_ub F NF NO NN SO e s gs k g bs); [exists col; auto|exact N| |exact Ss|].
    - rewrite <- Ids'. intros Hx. apply Ids in Hx. destruct Hx as [a Hi]. exact (He _ Hi).
    - destruct Cu as [Cu _]. intros Hc. destruct (Sl Hc) as [S1 S2]. cbn [List.concat] in S1, S2. rewrite app_nil_r in S1, S2. rewrite Cu. auto. }
  destruct R as [[r R]|R]; rewrite R in D; unfold result_or_loop; destruct (drive e k h (client0 g s) 0 pdr0 bs) as [a| | |]; cbn in D; try tauto.
  left. exists a. reflexivity.
Qed.
End Prog.

(** Over the reals the program ends, with the same outputs for every large
    enough bound of the angle loops. *)
Section Total.
Context {SO : Sorter}.
Variable geom : list (poly RX) -> box RX * (RX -> RX -> bool).
Variable ord : list (Z * Geo RX) -> list (Z * Geo RX).
Hypothesis O : any_order ord.

Lemma program_total svd g h fuel mapf setf logf xs c ls ms n : map_file fuel mapf xs -> settings_file setf c ls -> log_file logf ms ->
  (0 < n)%Z -> (Z.of_nat (List.length ms) + n < 2 ^ 64)%Z -> (List.length ms <= fuel)%nat ->
  (forall a, ~ In (JLevel "" a) xs) ->
  exists gs s, parse_geojson geom fuel ord xs = Ok gs /\ Forall (has_setting c s) rows /\ s_altitude s = false /\
    (forall lv, (exists ab, alookup lv (s_levels s) = Some ab) <-> In lv (map fst ls)) /\
    forall k, built s gs k -> sane_settings s -> sane_log s [ms] ->
      exists os n0, forall m, (n0 <= m)%nat -> exists lss, program geom ord fuel (mkEnv m svd) g h mapf logf setf n = Ok lss /\
        map (map (@ln_out RX)) lss = os.
Proof.
  intros Hm Hs Hl H1 H2 H3 He.
  destruct (stages geom O Hm Hs Hl) as (gs & s & col & E1 & E2 & E3 & Hr & E4 & E5 & N & Ids & Ids' & Lv).
  exists gs, s. split; [exact E2|]. split; [exact Hr|]. split; [exact (settings_altitude Hs E3)|]. split; [exact Lv|].
  intros k (col' & C' & K) Ss Sl. assert (col' = col) by congruence. subst col'.
  destruct (@chunks_pos _ n ms fuel H1 H2 H3) as (bs & E & Cu).
  destruct (@total_real SO svd s gs k g bs) as (r & n0 & R).
  - exists col; auto.
  - exact N.
  - rewrite <- Ids'. intros Hx. apply Ids in Hx. destruct Hx as [a Hi]. exact (He _ Hi).
  - exact Ss.
  - destruct Cu as [Cu _]. intros Hc. destruct (Sl Hc) as [S1 S2]. cbn [List.concat] in S1, S2. rewrite app_nil_r in S1, S2. rewrite Cu. auto.
  - exists (snd r), n0. intros m Hn. specialize (R m Hn).
    pose proof (@drive_outputs RX _ SO (mkEnv m svd) k h bs (client0 g s) 0%Z pdr0 (cut_nonempty Cu)) as D.
    unfold program. rewrite E1, E3. cbn [bind]. rewrite E4. cbn [bind]. rewrite K, E5. cbn [bind]. unfold run_driver. rewrite E. cbn [bind].
    rewrite R in D. destruct (drive _ k h (client0 g s) 0 pdr0 bs) as [a| | |]; cbn in D; try tauto. exists a. auto.
Qed.
End Total.

(** ** The configuration of a KNN client *)
Section Knn.
Context {SO : Sorter}.
Lemma triangulate_proper (c : collector RX) :
  (forall l, In l (col_levels c) -> Spec_Tri.proper (map (fun rp => mkTV (px (rp_pt rp)) (py (rp_pt rp)) (rp_id rp)) (rm_points (l_rm l)))) ->
  exists m, triangulate c = Ok m.
Proof.
  unfold triangulate. generalize (@nil (string * list tri)). induction (col_levels c) as [|l ls IH]; intros acc H; [eexists; reflexivity|].
  cbn [triangulate_levels]. destruct (Nat.ltb 3 _).
  - unfold level_triangles. cbv zeta. destruct (@Pf_Tri.triangulate_safe SO _ (fmax (px (bmax (l_box l)) -! px (bmin (l_box l))) (py (bmax (l_box l)) -! py (bmin (l_box l)))) (H l (or_introl eq_refl))) as [ts ->].
    cbn [bind]. destruct ts as [|t ts]; [eexists; reflexivity|]. apply IH. intros x Hx. apply H. right; exact Hx.
  - apply IH. intros x Hx. apply H. right; exact Hx.
Qed.
Lemma knn_config (s : settings RX) (c : collector RX) : s_algo s = KNN ->
  (forall l, In l (col_levels c) -> Spec_Tri.proper (map (fun rp => mkTV (px (rp_pt rp)) (py (rp_pt rp)) (rp_id rp)) (rm_points (l_rm l)))) ->
  let fits := forall x, In x [s_avg s; s_shift s; s_stopdetect s; s_deadreck s; s_stopupdate s] -> exists z, ftoZ (fofZ 1000 *! x) = Some z in
  ((exists k, mk_config s c = Ok k) <-> fits) /\ (mk_config s c = UB <-> ~ fits).
Proof.
  intros Ha Hp fits. assert (K : is_knn s = true) by (unfold is_knn; rewrite Ha; reflexivity).
  destruct (triangulate_proper c Hp) as [tris Et].
  assert (E : mk_config s c = match ftoZ (fofZ 1000 *! s_avg s), ftoZ (fofZ 1000 *! s_shift s), ftoZ (fofZ 1000 *! s_stopdetect s), ftoZ (fofZ 1000 *! s_deadreck s), ftoZ (fofZ 1000 *! s_stopupdate s) with
     | Some _, Some _, Some _, Some _, Some _ => mk_config s c | _, _, _, _, _ => UB end /\
     ((exists z1 z2 z3 z4 z5, ftoZ (fofZ 1000 *! s_avg s) = Some z1 /\ ftoZ (fofZ 1000 *! s_shift s) = Some z2 /\ ftoZ (fofZ 1000 *! s_stopdetect s) = Some z3 /\ ftoZ (fofZ 1000 *! s_deadreck s) = Some z4 /\ ftoZ (fofZ 1000 *! s_stopupdate s) = Some z5) ->
      exists k, mk_config s c = Ok k)).
  { unfold mk_config. rewrite K, Et. cbn [bind]. unfold buffer_config, post_config, to_ms.
    destruct (ftoZ (fofZ 1000 *! s_avg s)), (ftoZ (fofZ 1000 *! s_shift s)), (ftoZ (fofZ 1000 *! s_stopdetect s)), (ftoZ (fofZ 1000 *! s_deadreck s)), (ftoZ (fofZ 1000 *! s_stopupdate s)); cbn [bind];
      (split; [reflexivity|]); intros (y1 & y2 & y3 & y4 & y5 & H1 & H2 & H3 & H4 & H5); try discriminate; eexists; reflexivity. }
  destruct E as [E1 E2].
  assert (Y : fits -> exists k, mk_config s c = Ok k).
  { intros H. apply E2. destruct (H (s_avg s)) as [z1 H1]; [cbn; tauto|]. destruct (H (s_shift s)) as [z2 H2]; [cbn; tauto|]. destruct (H (s_stopdetect s)) as [z3 H3]; [cbn; tauto|].
    destruct (H (s_deadreck s)) as [z4 H4]; [cbn; tauto|]. destruct (H (s_stopupdate s)) as [z5 H5]; [cbn; tauto|]. exists z1, z2, z3, z4, z5. auto. }
  assert (N : fits \/ mk_config s c = UB).
  { unfold fits. cbn [In]. destruct (ftoZ (fofZ 1000 *! s_avg s)) eqn:H1; [|right; exact E1].
    destruct (ftoZ (fofZ 1000 *! s_shift s)) eqn:H2; [|right; exact E1]. destruct (ftoZ (fofZ 1000 *! s_stopdetect s)) eqn:H3; [|right; exact E1].
    destruct (ftoZ (fofZ 1000 *! s_deadreck s)) eqn:H4; [|right; exact E1]. destruct (ftoZ (fofZ 1000 *! s_stopupdate s)) eqn:H5; [|right; exact E1].
    left. intros x [<-|[<-|[<-|[<-|[<-|[]]]]]]; eauto. }
  split; split.
  - intros [k Hk]. destruct N as [N|N]; [exact N|congruence].
  - exact Y.
  - intros Hu H. destruct (Y H). congruence.
  - intros H. destruct N as [N|N]; [contradiction|exact N].
Qed.
End Knn.
