(** No lookup exception is reachable (C07). *)
From Coq Require Import Lia Permutation.
From Verif Require Import Base Lib NumOrd Client Spec_Preproc Spec_Level Spec_Client Pf_Level Pf_Preproc Pf_Client Pf_ClientInv.
Set Implicit Arguments.

(** ** Throw-free combinators *)
Section NT.
Lemma nt_bind A B (m : res A) (f : A -> res B) :
  m <> Throw -> (forall a, m = Ok a -> f a <> Throw) -> bind m f <> Throw.
Proof. intros Hm Hf. destruct m; cbn; [apply Hf; reflexivity|congruence|discriminate|discriminate]. Qed.
Lemma nt_ok A (a : A) : Ok a <> Throw. Proof. discriminate. Qed.
Lemma nt_fold A B (f : A -> B -> res A) (P : A -> Prop) l : forall a,
  P a -> (forall a x, P a -> In x l -> f a x <> Throw) ->
  (forall a x a', P a -> In x l -> f a x = Ok a' -> P a') ->
  fold_left (fun acc x => y <- acc ;; f y x) l (Ok a) <> Throw.
Proof.
  intros a Ha H1 H2.
  enough (G : forall r : res A, r <> Throw -> (forall a, r = Ok a -> P a) ->
    fold_left (fun acc x => y <- acc ;; f y x) l r <> Throw).
  { apply G; [discriminate|]. intros a' E; injection E as <-; exact Ha. }
  revert H1 H2. induction l as [|x l IH]; intros H1 H2 r Hr HP; cbn; [exact Hr|].
  apply IH; try (intros; (eapply H1 || eapply H2); eauto; right; assumption).
  - apply nt_bind; [exact Hr|]. intros b E. apply H1; [apply HP, E|left; reflexivity].
  - intros b E. destruct r as [b0| | |]; cbn in E; try discriminate.
    eapply H2; [apply HP; reflexivity|left; reflexivity|exact E].
Qed.
Lemma nt_mapM A B (f : A -> res B) l : (forall x, In x l -> f x <> Throw) -> mapM f l <> Throw.
Proof.
  induction l as [|x l IH]; intros H; cbn; [discriminate|].
  apply nt_bind; [apply H; left; reflexivity|]. intros y _. apply nt_bind; [|discriminate].
  apply IH. intros z Hz. apply H; right; exact Hz.
Qed.
Lemma nt_sort (SO : Sorter) A lt (l : list A) : sort_res lt l <> Throw.
Proof. unfold sort_res. destruct (swo_b lt l); discriminate. Qed.
Lemma nt_ex A (r : res A) a : r = Ok a -> r <> Throw. Proof. congruence. Qed.
End NT.

Section Throw.
Context {F : Type} {NF : Num F} {OF : NumOrd F} {SO : Sorter}.

(** ** Sensor fusion throws nothing *)
Lemma nt_skip A (c : A -> bool) l : skip_while c l <> Throw.
Proof. induction l as [|x l IH]; cbn; [discriminate|]. destruct (c x); [exact IH|discriminate]. Qed.
Lemma nt_mpp fuel (x : F) : to_mpp fuel x <> Throw.
Proof.
  unfold to_mpp. apply nt_bind.
  - revert x; induction fuel as [|n IH]; intros x; cbn; [discriminate|]. destruct (_ <=! _); [apply IH|discriminate].
  - intros y _. revert y; induction fuel as [|n IH]; intros y; cbn; [discriminate|]. destruct (_ <! _); [apply IH|discriminate].
Qed.
Lemma nt_cf fuel (k : cfconf F) c m : cf_update fuel k c m <> Throw.
Proof.
  unfold cf_update. destruct (s_type _); try discriminate.
  cbv zeta. match goal with |- context [let '(q, ie) := ?x in _] => destruct x as [q ie] end.
  apply nt_bind; [apply nt_mpp|discriminate].
Qed.
Lemma nt_ped_update (p : pedometer F) m : ped_update p m <> Throw.
Proof.
  unfold ped_update. destruct (s_type _); try discriminate. cbv zeta. apply nt_bind.
  - unfold filtered_magnitude. apply nt_bind; [apply nt_skip|]. intros a _. apply nt_bind; [apply nt_skip|].
    intros f _. cbv zeta. destruct (_ || _); discriminate.
  - intros g _. apply nt_bind; [apply nt_skip|discriminate].
Qed.
Lemma nt_ped_steps (p : pedometer F) : ped_steps p <> Throw.
Proof.
  unfold ped_steps. cbv zeta. destruct (Nat.leb _ _); [discriminate|].
  apply nt_bind.
  - assert (G : forall l r, r <> Throw ->
      fold_left (ped_body (pd_mags p) (time_between (pd_times p))) l r <> Throw).
    { induction l as [|i l IH]; intros r Hr; cbn [fold_left]; [exact Hr|]. apply IH. unfold ped_body.
      apply nt_bind; [exact Hr|]. intros [[[po st] ti] sp] _. destruct i; [discriminate|].
      destruct (nth_error _ _); [|discriminate]. destruct (nth_error _ _); [|discriminate].
      destruct (_ && _); discriminate. }
    apply G. discriminate.
  - intros [[[po st] ti] sp] _. apply nt_bind; [apply nt_skip|discriminate].
Qed.
Lemma nt_sf fuel (s : settings F) sf m ts : sf_step fuel s sf m ts <> Throw.
Proof.
  unfold sf_step. apply nt_bind; [apply nt_ped_update|]. intros p _.
  apply nt_bind; [apply nt_ped_steps|]. intros [p' st] _.
  apply nt_bind; [apply nt_cf|]. intros cf _. cbv zeta.
  match goal with |- context [let '(az, azv) := ?x in _] => destruct x as [az azv] end. destruct st; discriminate.
Qed.

(** ** Preprocessing *)
Lemma get_tx_ok (l : level F) tx : contains_tx l tx = true -> exists t, get_tx l tx = Ok t.
Proof.
  unfold contains_tx, amem, get_tx. destruct (alookup tx (l_txs l)) as [t|]; [|discriminate].
  intros _. exists t. reflexivity.
Qed.
Lemma nt_update s (c : collector F) p m : wf_collector c -> update_measurements s c p m <> Throw.
Proof.
  intros Hw. unfold update_measurements. destruct (st_data m); try discriminate.
  destruct (valid_signal_spec s r Hw) as (v & -> & _). cbn. destruct v; discriminate.
Qed.
Lemma nt_extract s bc (c : collector F) p ls : wf_collector c -> extract_radio s bc c p ls <> Throw.
Proof.
  intros Hw. unfold extract_radio. destruct (buffer_extract _ _ _) as [b out].
  apply nt_bind.
  - unfold closest_aps. destruct (s_closest s); [|discriminate].
    apply nt_bind; [apply nt_sort|discriminate].
  - intros sel _. apply nt_bind; [|discriminate]. apply nt_mapM. intros m _. unfold set_distance.
    destruct (negb _); [|discriminate]. unfold find_level_by_tx.
    destruct (find _ _) as [l|] eqn:E; [|discriminate]. apply find_some in E. destruct E as [E1 E2].
    destruct (get_level_wf _ Hw E1) as [_ ->]. cbn [bind]. destruct (get_tx_ok _ _ E2) as (t & ->). discriminate.
Qed.
Lemma nt_outdoor s (c : collector F) o ts m n fl : outdoor_position s c o ts m n fl <> Throw.
Proof.
  unfold outdoor_position. cbv zeta. destruct (gps_of s m) as [[[la lo] dev]|].
  - destruct (find _ _); [|discriminate]. apply nt_bind.
    + destruct (_ && _); [|discriminate]. destruct (_ && _); discriminate.
    + intros [buf v] _. destruct (_ || _); discriminate.
  - destruct (_ <! _); discriminate.
Qed.

(** ** Levels built by the collector *)
Record wf_level (l : level F) : Prop := mkWfl {
  wl_rm : forall id i, alookup id (rm_index (l_rm l)) = Some i -> nth_error (rm_points (l_rm l)) i <> None;
  wl_edges : Forall (fun e => has_vertex (l_graph l) (fst e) = true /\ has_vertex (l_graph l) (snd e) = true)
               (g_edges (l_graph l)) }.

Lemma index_from_bound A (key : A -> string) l : forall i acc n,
  (forall id j, alookup id acc = Some j -> (j < n)%nat) -> (i + List.length l <= n)%nat ->
  forall id j, alookup id (index_from key i l acc) = Some j -> (j < n)%nat.
Proof.
  induction l as [|x l IH]; intros i acc n Ha Hn id j; cbn; [apply Ha|].
  cbn in Hn. apply IH; [|lia]. intros id' j'. unfold ainsert. destruct (amem _ _); [apply Ha|].
  rewrite alookup_app. destruct (alookup id' acc) eqn:E; [intros X; injection X as <-; eapply Ha; exact E|].
  cbn. destruct (String.eqb _ _); [intros X; injection X as <-; lia|discriminate].
Qed.
Lemma set_insert_in e x l : In x (set_insert e l) -> x = e \/ In x l.
Proof.
  induction l as [|y l IH]; cbn; [intros [<-|[]]; auto|].
  destruct (pair_ltb e y); [intros [<-|H]; auto|]. destruct (pair_ltb y e); [|auto].
  intros [<-|H]; [right; left; reflexivity|]. destruct (IH H); auto.
Qed.
Lemma add_edge_wf P (g g' : graph P) v1 v2 : add_edge g v1 v2 = Ok g' ->
  Forall (fun e => has_vertex g (fst e) = true /\ has_vertex g (snd e) = true) (g_edges g) ->
  g_verts g' = g_verts g /\
  Forall (fun e => has_vertex g' (fst e) = true /\ has_vertex g' (snd e) = true) (g_edges g').
Proof.
  unfold add_edge. destruct (negb _ || negb _) eqn:E; [discriminate|]. intros H. injection H as <-. intros Hf.
  apply orb_false_iff in E. destruct E as [E1 E2]. apply negb_false_iff in E1, E2. cbn. split; [reflexivity|].
  rewrite Forall_forall in *. intros x Hx. apply set_insert_in in Hx. destruct Hx as [-> |Hx]; [|apply Hf, Hx].
  destruct (_ <? _)%Z; cbn; auto.
Qed.
Lemma local_graph_wf b (g : graph (Geo F)) g' : local_graph b g = Ok g' ->
  Forall (fun e => has_vertex g' (fst e) = true /\ has_vertex g' (snd e) = true) (g_edges g').
Proof.
  unfold local_graph. destruct (fold_left _ (g_verts g) _) as [xy ids] eqn:E.
  assert (Hx : g_edges xy = []).
  { assert (G : forall vs acc, g_edges (fst acc) = [] ->
      g_edges (fst (fold_left (fun (acc : graph (XY F) * list (Z * Z)) v =>
        let '(xy, ids) := acc in
        (add_vertex xy (gps_to_local (snd v) b), (fst v, Z.of_nat (List.length (g_verts xy))) :: ids)) vs acc)) = []).
    { induction vs as [|v vs IH]; intros [xy' ids'] H; cbn [fold_left]; [exact H|]. apply IH. exact H. }
    specialize (G (g_verts g) (graph0, []) eq_refl). rewrite E in G. exact G. }
  cbv zeta.
  assert (G : forall es (r : res (graph (XY F))), (forall g1, r = Ok g1 ->
      Forall (fun e => has_vertex g1 (fst e) = true /\ has_vertex g1 (snd e) = true) (g_edges g1)) ->
    forall g', fold_left (fun (acc : res (graph (XY F))) e =>
      xy <- acc ;; v1 <- get_vertex g (fst e) ;; v2 <- get_vertex g (snd e) ;;
      add_edge xy (match find (fun e => Z.eqb (fst e) (fst v1)) ids with Some e => snd e | None => 0%Z end)
                  (match find (fun e => Z.eqb (fst e) (fst v2)) ids with Some e => snd e | None => 0%Z end)) es r = Ok g' ->
    Forall (fun e => has_vertex g' (fst e) = true /\ has_vertex g' (snd e) = true) (g_edges g')).
  { induction es as [|e es IH]; intros r Hr g1 H; [apply Hr, H|]. cbn [fold_left] in H.
    eapply IH; [|exact H]. intros g2 H2. inv_bind H2. inv_bind Hb. inv_bind Hb0.
    apply add_edge_wf in Hb; [apply Hb|]. apply Hr; exact Ha. }
  apply G. intros g1 X. injection X as <-. rewrite Hx. constructor.
Qed.
Lemma local_level_wf g (l : level F) : local_level g = Ok l -> wf_level l.
Proof.
  unfold local_level. intros H. inv_bind H. injection Hb as <-. constructor.
  - cbn. intros id i Hi. apply nth_error_Some. 
    eapply index_from_bound; [| |exact Hi]; [discriminate|]. lia.
  - cbn. eapply local_graph_wf; exact Ha.
Qed.
Lemma add_geo_levels_levels gs : forall c c' : collector F, Forall wf_level (col_levels c) ->
  add_geo_levels c gs = Ok c' -> Forall wf_level (col_levels c').
Proof.
  induction gs as [|g gs IH]; intros c c' Hc H; [injection H as <-; exact Hc|].
  unfold add_geo_levels in *. cbn [fold_left bind] in H.
  destruct (add_geo_level c g) as [c1| | |] eqn:E;
    try (exfalso; eapply (fold_throw (@add_geo_level F NF) gs); [|exact H]; discriminate).
  eapply IH; [|exact H]. unfold add_geo_level in E. inv_bind E. injection Hb as <-. cbn.
  apply Forall_app. split; [exact Hc|]. constructor; [|constructor]. eapply local_level_wf; exact Ha.
Qed.

(** ** Reference transmitters *)
Definition has_fp (l : level F) : Prop := exists rp, In rp (rm_points (l_rm l)) /\ rp_fp rp <> [].
Lemma ref_step_keys lid m (rp : refpoint F) k : In k (map fst m) -> In k (map fst (ref_tx_step lid m rp)).
Proof.
  unfold ref_tx_step. destruct (map fst (rp_fp rp)); [auto|]. intros H. apply keys_mset. auto.
Qed.
Lemma ref_fold_keys lid rps : forall m k, In k (map fst m) -> In k (map fst (fold_left (@ref_tx_step F lid) rps m)).
Proof. induction rps as [|rp rps IH]; intros m k H; cbn; [exact H|]. apply IH, ref_step_keys, H. Qed.
Lemma refs_keys ls : forall m k, In k (map fst m) ->
  In k (map fst (fold_left (fun m (l : level F) => fold_left (ref_tx_step (l_id l)) (rm_points (l_rm l)) m) ls m)).
Proof. induction ls as [|l ls IH]; intros m k H; cbn; [exact H|]. apply IH, ref_fold_keys, H. Qed.
Lemma refs_present (c : collector F) l : In l (col_levels c) -> has_fp l -> alookup (l_id l) (ref_txs c) <> None.
Proof.
  intros Hl (rp & Hr & Hf). rewrite alookup_none. intros N; apply N; clear N. unfold ref_txs.
  generalize (@nil (string * list string)) as m. revert Hl. induction (col_levels c) as [|l0 ls IH]; intros Hl m; [destruct Hl|].
  cbn [fold_left]. destruct Hl as [->|Hl]; [|apply IH, Hl]. apply refs_keys. clear IH.
  revert m Hr. induction (rm_points (l_rm l)) as [|r0 rps IH]; intros m Hr; [destruct Hr|].
  cbn [fold_left]. destruct Hr as [->|Hr]; [|apply IH, Hr]. apply ref_fold_keys.
  unfold ref_tx_step. destruct (rp_fp rp) as [|x t]; [congruence|]. cbn [map]. apply keys_mset. auto.
Qed.
Lemma fingerprint_fp (l : level F) tx : fingerprints l tx <> [] -> has_fp l.
Proof.
  unfold fingerprints, has_fp. intros H. induction (rm_points (l_rm l)) as [|rp rps IH]; [cbn in H; congruence|].
  cbn in H. destruct (rp_fp rp) as [|x t] eqn:E.
  - cbn in H. destruct (IH H) as (r & H1 & H2). exists r. split; [right; exact H1|exact H2].
  - exists rp. split; [left; reflexivity|congruence].
Qed.

(** ** Which level can be handed to the KNN estimator *)
Record sound (k : config F) : Prop := mkSound {
  sd_wf : wf_collector (cf_col k); sd_levels : Forall wf_level (col_levels (cf_col k));
  sd_noempty : has_level (cf_col k) "" = false;
  sd_rmaps : kt_rmaps (cf_kt k) = levels_rmaps (cf_col k); sd_refs : kt_refs (cf_kt k) = ref_txs (cf_col k) }.

Definition usable (k : config F) (lid : string) : Prop :=
  is_knn (cf_set k) = true -> lid = ""%string \/ exists l, In l (col_levels (cf_col k)) /\ lid = l_id l /\ has_fp l.
Definition lev_inv (k : config F) (e : levest F) : Prop := usable k (lh_cur (le_hist e)) /\ usable k (ba_level (le_baro e)).
Lemma usable_empty k : usable k "". Proof. intros _; left; reflexivity. Qed.

Lemma detect_usable k rs : sound k -> exists d, detect k rs = Ok d /\ usable k d.
Proof.
  intros S. unfold detect. destruct (use_rm_level (cf_set k)) eqn:E.
  - rewrite (sd_rmaps S).
    destruct (detect_rm_best (s_bestrp (cf_set k)) (cf_col k) rs (proj1 (sd_wf S))) as (r & Er & sc & _ & [[-> _]|(l & H1 & H2 & _ & (m & _ & H4) & _)]).
    + exists ""%string. split; [exact Er|apply usable_empty].
    + exists r. split; [exact Er|]. intros _. right. exists l. split; [exact H1|]. split; [exact H2|]. eapply fingerprint_fp; exact H4.
  - destruct (detect_tx_best (s_txpower (cf_set k)) (cf_col k) rs) as (r & Er & _).
    exists r. split; [exact Er|]. intros X. unfold use_rm_level in E. rewrite X, orb_true_r in E. discriminate.
Qed.
Lemma level_usable k b e d m e' lid : lev_inv k e -> usable k d -> level_step b e d m = (e', lid) ->
  lev_inv k e' /\ usable k lid.
Proof.
  intros [H1 H2] Hd H. unfold level_step in H. destruct (hist_step (le_hist e) d) as [h l1] eqn:Eh.
  assert (Hh : usable k (lh_cur h) /\ usable k l1).
  { unfold hist_step in Eh. destruct (String.eqb d ""); [injection Eh as <- <-; auto|].
    destruct (_ <? _)%Z; injection Eh as <- <-; cbn; [auto|]. destruct (lh_init _); auto. }
  destruct Hh as [Hh1 Hh2]. destruct b; [|injection H as <- <-; split; [split; cbn|]; auto].
  unfold baro_step in H. destruct (negb (ba_init _)); [injection H as <- <-; split; [split; cbn|]; auto|].
  injection H as <- <-. unfold lev_inv. cbn [le_hist le_baro].
  assert (G : usable k (ba_level (baro_update_level (baro_update_buffers (le_baro e) m) l1))).
  { assert (Hb : ba_level (baro_update_buffers (le_baro e) m) = ba_level (le_baro e)).
    { unfold baro_update_buffers. destruct (s_type _); try reflexivity. cbv zeta.
      match goal with |- context [let '(n, o) := ?x in _] => destruct x end. reflexivity. }
    unfold baro_update_level. cbv zeta. destruct (_ && _); [|exact Hh2].
    destruct (negb _); [|rewrite Hb; exact H2]. destruct (_ || _); [rewrite Hb; exact H2|].
    destruct (_ <! _); [exact Hh2|rewrite Hb; exact H2]. }
  auto.
Qed.

(** ** Position estimation, projection, output *)
Lemma get_rp_ok (l : level F) rid : wf_level l -> has_rp (l_rm l) rid = true -> exists p, get_rp (l_rm l) rid = Ok p.
Proof.
  intros Hw. unfold has_rp, amem, get_rp. destruct (alookup rid _) as [i|] eqn:E; [|discriminate]. intros _.
  assert (N := wl_rm Hw _ E). cbn. destruct (nth_error _ _) as [p|]; [|congruence]. exists p. reflexivity.
Qed.
Lemma has_level_get (c : collector F) lid : wf_collector c -> has_level c lid = true ->
  exists l, get_level c lid = Ok l /\ In l (col_levels c) /\ l_id l = lid.
Proof.
  intros Hw H. unfold has_level, amem in H. destruct (alookup lid (col_index c)) as [i|] eqn:E; [|discriminate].
  assert (E' := E). apply Hw in E'. destruct E' as (l & Hl & He). exists l.
  split; [|split; [eapply nth_error_In; exact Hl|exact He]].
  unfold get_level. rewrite E. cbn. rewrite Hl. reflexivity.
Qed.
Lemma nt_indoor k mp l ts rs : sound k -> In l (col_levels (cf_col k)) ->
  (is_knn (cf_set k) = true -> has_fp l) -> indoor k mp l ts rs <> Throw.
Proof.
  intros S Hl Hf. unfold indoor. destruct (is_knn _).
  - unfold knn_position. destruct rs as [|r rs]; [discriminate|].
    rewrite (sd_refs S), (sd_rmaps S), (levels_rmaps_lookup _ _ (proj1 (sd_wf S)) Hl).
    assert (N := refs_present _ Hl (Hf eq_refl)). destruct (alookup _ (ref_txs _)) as [ids|]; [|congruence]. cbn [at_or_throw bind].
    destruct (Nat.ltb _ _); [discriminate|]. cbv zeta. destruct (s_triangles _).
    + destruct (alookup _ _) as [[|t ts']|]; try discriminate. apply nt_bind; [|discriminate].
      unfold position_in_triangle. cbv zeta. set (T := max_elem_from _ _ _).
      destruct (_ <! feps); [discriminate|].
      destruct (has_rp (l_rm l) (tr1 T)) eqn:E1; [|discriminate].
      destruct (has_rp (l_rm l) (tr2 T)) eqn:E2; [|discriminate].
      destruct (has_rp (l_rm l) (tr3 T)) eqn:E3; [|discriminate]. cbn [negb orb].
      assert (W : wf_level l) by (assert (X := sd_levels S); rewrite Forall_forall in X; apply X, Hl).
      destruct (get_rp_ok _ W E1) as (p1 & ->). destruct (get_rp_ok _ W E2) as (p2 & ->).
      destruct (get_rp_ok _ W E3) as (p3 & ->). discriminate.
    + apply nt_bind; [|discriminate]. unfold k_heaviest_average. cbn [firstn fold_left]. cbv zeta. cbn [bind].
      destruct (_ <! _); discriminate.
  - apply nt_bind; [|discriminate]. unfold zone_position. destruct rs as [|r rs]; [discriminate|].
    destruct (level_radio l (r :: rs)) as [|m0 rest]; [discriminate|]. cbv zeta. apply nt_bind.
    + destruct (contains_tx _ _) eqn:E; [|discriminate]. destruct (get_tx_ok _ _ E) as (t & ->). discriminate.
    + intros p _. destruct (mget _ _ _); discriminate.
Qed.
Lemma nt_vertex P (g : graph P) i : has_vertex g i = true -> get_vertex g i <> Throw.
Proof.
  intros H. unfold get_vertex. rewrite H. unfold has_vertex in H. apply andb_prop in H. destruct H as [H1 H2].
  apply Z.leb_le in H1. apply Z.ltb_lt in H2. destruct (nth_error _ _) eqn:E; [discriminate|].
  apply nth_error_None in E. lia.
Qed.
Lemma nt_projection (l : level F) p : wf_level l -> graph_projection (l_graph l) p <> Throw.
Proof.
  intros W. unfold graph_projection. apply nt_bind; [|discriminate].
  assert (G : forall es (r : res (XY F * F)), r <> Throw ->
    Forall (fun e => has_vertex (l_graph l) (fst e) = true /\ has_vertex (l_graph l) (snd e) = true) es ->
    fold_left (fun (acc : res (XY F * F)) e =>
         '(p0, d0) <- acc ;;
         u <- get_vertex (l_graph l) (fst e) ;;
         v <- get_vertex (l_graph l) (snd e) ;;
         let p1 := proj_edge (snd u) (snd v) p in
         let d := get_dist (px p) (py p) (px p1) (py p1) in
         Ok (if fisnan d0 || (d <! d0) then (p1, d) else (p0, d0))) es r <> Throw).
  { induction es as [|e es IH]; intros r Hr He; [exact Hr|]. inversion He as [|? ? [E1 E2] He']; subst.
    cbn [fold_left]. apply IH; [|exact He']. apply nt_bind; [exact Hr|]. intros [p0 d0] _.
    apply nt_bind; [apply nt_vertex, E1|]. intros u _. apply nt_bind; [apply nt_vertex, E2|]. discriminate. }
  apply G; [discriminate|apply (wl_edges W)].
Qed.
Lemma nt_pf_add c (p : polyfit F) x y : pf_add c p x y <> Throw.
Proof.
  unfold pf_add. cbv zeta. destruct (match back (pf_y p) with Some _ => _ | None => _ end); [|discriminate].
  apply nt_bind.
  - generalize (pf_x p ++ [x]) (pf_y p ++ [y]). induction l as [|a l IH]; intros [|b l0]; cbn; try discriminate.
    destruct (_ <! _); [apply IH|discriminate].
  - intros [xs ys] _. discriminate.
Qed.
Lemma nt_smooth s al (m : smoother F) p : sm_smooth s al m p <> Throw.
Proof.
  destruct m as [a|q]; cbn [sm_smooth].
  - destruct (ab_smooth s al a p); discriminate.
  - apply nt_bind; [|intros [? ?] _; discriminate]. unfold lsq_smooth. destruct (negb _); [discriminate|]. cbv zeta.
    apply nt_bind; [apply nt_pf_add|]. intros fx _. apply nt_bind; [apply nt_pf_add|]. intros fy _.
    destruct (pf_predict _ fx _), (pf_predict _ fy _). destruct (_ && _); discriminate.
Qed.
Lemma nt_processed s c o f ts lm (l : level F) : wf_level l -> processed s c o f ts lm l <> Throw.
Proof.
  intros W. unfold processed. cbv zeta.
  destruct (p_empty f); [discriminate|]. destruct (negb _); [discriminate|]. destruct (_ <=? _)%Z; [discriminate|].
  apply nt_bind.
  - destruct (s_usesmooth s); [apply nt_smooth|discriminate].
  - intros [sm r] _. destruct (if s_timesmooth s then _ else _) as [tm r1].
    destruct (hold_or_move _ _ _ _ _ _) as [last extr]. apply nt_bind; [|discriminate].
    unfold project. destruct (s_graphproj s); [|discriminate]. apply nt_bind; [apply nt_projection, W|discriminate].
Qed.
Lemma nt_altitude svd (l : level F) rs : altitude svd l rs <> Throw.
Proof.
  unfold altitude.
  assert (Hr : forall m, In m (level_radio l rs) -> contains_tx l (r_id m) = true).
  { intros m Hm. apply filter_In in Hm. apply Hm. }
  assert (Hs : forall sl, sort_res (fun a b : radio F => r_dist a <! r_dist b) (level_radio l rs) = Ok sl ->
    forall m, In m sl -> contains_tx l (r_id m) = true).
  { intros sl E m Hm. apply sort_res_ok in E. destruct E as [_ [E _]]. apply Hr.
    apply (Permutation_in _ (Permutation_sym E)), Hm. }
  apply nt_bind.
  - unfold intersected. apply nt_bind; [apply nt_sort|]. intros sl E. specialize (Hs _ E).
    apply nt_bind; [|discriminate]. unfold bad_ids.
    apply (nt_fold (fun bad m1 => if existsb (String.eqb (r_id m1)) bad then Ok bad else bad_for l sl m1 bad) (fun _ => True)); auto.
    intros bad m1 _ Hm1. destruct (existsb _ _); [discriminate|]. unfold bad_for.
    apply (nt_fold (fun bad m2 => d <- tx_delta l (r_id m1) (r_id m2) ;;
      Ok (if (r_dist m1 +! r_dist m2) <! d then bad ++ [r_id m2] else bad)) (fun _ => True)); auto.
    intros b2 m2 _ Hm2. apply nt_bind; [|discriminate]. unfold tx_delta.
    destruct (get_tx_ok _ _ (Hs _ Hm1)) as (t1 & ->). destruct (get_tx_ok _ _ (Hs _ Hm2)) as (t2 & ->). discriminate.
  - intros ms E. unfold intersected in E. inv_bind E. inv_bind Hb. injection Hb0 as <-. specialize (Hs _ Ha).
    assert (Hi : forall m, In m (filter (fun m => negb (existsb (String.eqb (r_id m)) a0)) a) -> contains_tx l (r_id m) = true).
    { intros m Hm. apply filter_In in Hm. apply Hs, Hm. }
    destruct (filter _ a) as [|m1 rest]; [discriminate|]. destruct (Nat.ltb _ _); [discriminate|].
    destruct (get_tx_ok _ _ (Hi m1 (or_introl eq_refl))) as (t1 & E1). rewrite E1. cbn [bind].
    apply nt_bind.
    + apply nt_mapM. intros m Hm. destruct (get_tx_ok _ _ (Hi m (or_intror Hm))) as (t & ->). discriminate.
    + intros rows _. destruct (svd _ _) as [[sx sy] sz]. apply nt_bind.
      * apply nt_mapM. intros m Hm. destruct (get_tx_ok _ _ (Hi m Hm)) as (t & ->). discriminate.
      * intros terms _. destruct (flat_map _ terms); discriminate.
Qed.
Lemma nt_output e k p st az (rs : list (radio F)) : sound k -> fine (cf_col k) p -> output e k p st az rs <> Throw.
Proof.
  intros S [_ Hf]. unfold output. destruct (p_empty p) eqn:E; [discriminate|]. destruct Hf as [Hf|Hf]; [discriminate|].
  apply nt_bind.
  - destruct (String.eqb _ _); [discriminate|].
    unfold known_level in Hf. apply in_map_iff in Hf. destruct Hf as (l & El & Hl). rewrite <- El.
    destruct (get_level_wf _ (sd_wf S) Hl) as [_ ->]. cbn [bind]. cbv zeta.
    apply nt_bind; [|discriminate]. destruct (s_altitude _); [apply nt_altitude|discriminate].
  - intros [[la lo] al] _. apply nt_bind; [apply nt_mpp|discriminate].
Qed.
Lemma nt_locate k c ts lid rs outp mi : sound k -> usable k lid -> locate k c ts lid rs outp mi <> Throw.
Proof.
  intros S U. unfold locate. destruct (has_level _ _) eqn:E; [|destruct (negb _); discriminate].
  destruct (has_level_get _ (sd_wf S) E) as (l & -> & Hl & Hid). cbn [bind].
  assert (W : wf_level l) by (assert (X := sd_levels S); rewrite Forall_forall in X; apply X, Hl).
  apply nt_bind.
  - apply nt_indoor; [exact S|exact Hl|]. intros K. destruct (U K) as [->|(l' & Hl' & E' & Hf)].
    + rewrite (sd_noempty S) in E. discriminate.
    + assert (l' = l); [|congruence].
      destruct (get_level_wf _ (sd_wf S) Hl') as [_ G1]. destruct (get_level_wf _ (sd_wf S) Hl) as [_ G2].
      rewrite <- E' in G1. rewrite Hid in G2. congruence.
  - intros [kn [st inp]] _. destruct (fuse_positions _ _ _ _ _ _) as [po f]. apply nt_bind.
    + unfold heading_step. cbv zeta. destruct (_ && _); [discriminate|]. destruct (c_prevgyro c); [|discriminate].
      destruct (c_prevhead c); discriminate.
    + intros [[[az azv] ph] pg] _. apply nt_bind; [apply nt_processed, W|]. intros [po1 p1] _. discriminate.
Qed.

(** ** The client *)
Lemma nt_step e k c m : (f0 =! f0) = true -> sound k -> inv k c -> lev_inv k (c_lev c) -> nav_step e k c m <> Throw.
Proof.
  intros H0 S I L. unfold nav_step. cbv zeta. apply nt_bind; [apply nt_update, S|]. intros pre _.
  apply nt_bind; [apply nt_sf|]. intros [sf mi] _.
  apply nt_bind; [apply nt_extract, S|]. intros [pre1 rs] _.
  destruct (detect_usable rs S) as (d & -> & Hd). cbn [bind].
  destruct (level_step _ _ _ _) as [lev lid] eqn:El. destruct (level_usable _ _ L Hd El) as [_ U].
  apply nt_bind; [apply nt_outdoor|]. intros [outd outp] Eo.
  destruct (outdoor_fine _ _ _ _ _ _ (iv_outd I) Eo) as [_ G].
  apply nt_bind.
  - apply nt_locate; [exact S|]. unfold drop_level. destruct (_ && _ && _); [apply usable_empty|].
    destruct (_ <=? _)%Z; [apply usable_empty|exact U].
  - intros oc Eoc. destruct (locate_fine _ _ _ _ H0 I G Eoc) as (_ & _ & Hp & _).
    apply nt_bind; [apply nt_output; assumption|discriminate].
Qed.
Lemma lev_step e k c m c' o : sound k -> lev_inv k (c_lev c) -> nav_step e k c m = Ok (c', o) -> lev_inv k (c_lev c').
Proof.
  intros S L H. destruct (nav_step_inv _ _ _ _ H) as (pre & sf & mi & pre1 & rs & det & lev & lid & outd & outp & oc & ns
    & H1 & H2 & H3 & H4 & H5 & H6 & H7 & H8 & ->). cbn [c_lev].
  destruct (detect_usable rs S) as (d & E & Hd). rewrite E in H4. injection H4 as <-.
  apply (level_usable _ _ L Hd H5).
Qed.
Lemma nt_process e k ms : forall c, (f0 =! f0) = true -> sound k -> inv k c -> lev_inv k (c_lev c) ->
  process e k c ms <> Throw /\
  forall c' os, process e k c ms = Ok (c', os) -> inv k c' /\ lev_inv k (c_lev c').
Proof.
  induction ms as [|m ms IH]; intros c H0 S I L.
  - split; [discriminate|]. intros c' os X. injection X as <- <-. auto.
  - cbn [process]. split.
    + apply nt_bind; [apply nt_step; assumption|]. intros [c1 o] E.
      apply nt_bind; [|intros [c2 os] _; discriminate].
      apply IH; [exact H0|exact S|eapply inv_step; eassumption|eapply lev_step; eassumption].
    + intros c' os X. inv_bind X. destruct a as [c1 o1]. inv_bind Hb. destruct a as [c2 o2]. injection Hb0 as <- <-.
      eapply IH; [exact H0|exact S| | |exact Ha0]; [eapply inv_step; eassumption|eapply lev_step; eassumption].
Qed.
Lemma nt_history e k bs : forall c, (f0 =! f0) = true -> sound k -> inv k c -> lev_inv k (c_lev c) ->
  navigate_all e k c bs <> Throw.
Proof.
  induction bs as [|b bs IH]; intros c H0 S I L; [discriminate|]. cbn [navigate_all].
  destruct b as [|m b].
  - cbn [navigate bind]. apply nt_bind; [apply IH; assumption|]. intros [c2 os] _. discriminate.
  - rewrite navigate_process by discriminate.
    destruct (nt_process e (accepted (m :: b)) (c := clear_states c) H0 S (inv_states [] I) L) as [G1 G2].
    apply nt_bind; [exact G1|]. intros [c1 o] E. destruct (G2 _ _ E).
    apply nt_bind; [apply IH; assumption|]. intros [c2 os] _. discriminate.
Qed.

Lemma built_wf s gs k : built s gs k -> NoDup (map (@gl_id F) gs) -> wf_collector (cf_col k).
Proof.
  intros (c & Hc & Hk) Hn. unfold mk_config in Hk. inv_bind Hk. inv_bind Hb. inv_bind Hb0. inv_bind Hb. injection Hb0 as <-.
  cbn. eapply add_geo_levels_wf; [apply col0_wf|exact Hn|exact Hc].
Qed.
Lemma built_sound s gs k : built s gs k -> NoDup (map (@gl_id F) gs) -> ~ In ""%string (map (@gl_id F) gs) ->
  sound k /\ cf_set k = s.
Proof.
  intros (c & Hc & Hk) Hn He.
  assert (Hw : wf_collector c) by (eapply add_geo_levels_wf; [apply col0_wf|exact Hn|exact Hc]).
  assert (Hl : Forall wf_level (col_levels c)) by (eapply add_geo_levels_levels; [|exact Hc]; constructor).
  assert (Hids : map (@l_id F) (col_levels c) = map (@gl_id F) gs).
  { assert (G : forall gs c0 c1, NoDup (map (@l_id F) (col_levels c0) ++ map (@gl_id F) gs) -> wf_collector c0 ->
      add_geo_levels c0 gs = Ok c1 -> map (@l_id F) (col_levels c1) = map (@l_id F) (col_levels c0) ++ map (@gl_id F) gs).
    { clear. induction gs as [|g gs IH]; intros c0 c1 Hn Hw H; [injection H as <-; rewrite app_nil_r; reflexivity|].
      unfold add_geo_levels in *. cbn [fold_left bind] in H.
      destruct (add_geo_level c0 g) as [c2| | |] eqn:E;
        try (exfalso; eapply (fold_throw (@add_geo_level F NF) gs); [|exact H]; discriminate).
      destruct (add_geo_level_wf (c := c0) (c' := c2) g Hw) as [W2 E2]; [|exact E|].
      { cbn [map] in Hn. apply NoDup_remove_2 in Hn. intros X; apply Hn, in_or_app; auto. }
      rewrite (IH c2 c1); [rewrite E2, <- app_assoc; reflexivity| |exact W2|exact H].
      rewrite E2, <- app_assoc. exact Hn. }
    rewrite (G gs col0 c); [reflexivity|exact Hn|apply col0_wf|exact Hc]. }
  unfold mk_config in Hk. inv_bind Hk. inv_bind Hb. inv_bind Hb0. inv_bind Hb. injection Hb0 as <-.
  split; [|reflexivity]. constructor; cbn; auto.
  destruct (has_level c "") eqn:E; [|reflexivity]. exfalso.
  destruct (has_level_get _ Hw E) as (l & _ & H1 & H2). apply He. rewrite <- Hids, <- H2. apply in_map, H1.
Qed.
Lemma lev_inv0 k g s : lev_inv k (c_lev (client0 g s)).
Proof. split; apply usable_empty. Qed.
Lemma never_throws e s gs k g bs : (f0 =! f0) = true -> built s gs k -> NoDup (map (@gl_id F) gs) ->
  ~ In ""%string (map (@gl_id F) gs) -> navigate_all e k (client0 g s) bs <> Throw.
Proof.
  intros H0 Hb Hn He. destruct (built_sound Hb Hn He) as [S _].
  apply nt_history; [exact H0|exact S|apply inv0|apply lev_inv0].
Qed.
End Throw.
