(** Order of iteration, well-formed files and rejected messages. *)
From Coq Require Import Lia Sorted Permutation Reals Lra.
From Verif Require Import Lib NumOrd NumReal NumFloat LibR SortInst Tools Spec_Geo Spec_Tools Spec_Preproc Spec_Client Pf_Preproc Pf_Geo Pf_GeoDist Pf_Tools Pf_ToolsG Pf_ToolsF.
Set Implicit Arguments.
Local Open Scope string_scope.
Local Open Scope list_scope.

Section Order.
Context {F : Type} {NF : Num F}.

(** one vertex for every point: the order does not matter *)
Lemma find_unique ord ord' (vm : list (Z * Geo F)) p : any_order ord -> any_order ord' ->
  (forall e e', In e vm -> In e' vm -> same_point p (snd e) = true -> same_point p (snd e') = true -> e = e') ->
  find_vertex ord vm p = find_vertex ord' vm p.
Proof.
  intros O O' U. unfold find_vertex. destruct (find _ (ord vm)) as [e|] eqn:E, (find _ (ord' vm)) as [e'|] eqn:E'; [| | |reflexivity].
  - apply find_some in E, E'. destruct E as [I S], E' as [I' S']. rewrite (U e e'); [reflexivity| | |exact S|exact S'].
    + eapply Permutation_in; [apply Permutation_sym, O|exact I].
    + eapply Permutation_in; [apply Permutation_sym, O'|exact I'].
  - exfalso. apply find_some in E. destruct E as [I S]. assert (X := find_none _ _ E' e). cbn in X. rewrite X in S; [discriminate|].
    eapply Permutation_in; [apply O'|]. eapply Permutation_in; [apply Permutation_sym, O|exact I].
  - exfalso. apply find_some in E'. destruct E' as [I S]. assert (X := find_none _ _ E e'). cbn in X. rewrite X in S; [discriminate|].
    eapply Permutation_in; [apply O|]. eapply Permutation_in; [apply Permutation_sym, O'|exact I].
Qed.

Lemma adj_order ord ord' vm (lines : list (list (Geo F))) :
  (forall p, In p (List.concat lines) -> find_vertex ord vm p = find_vertex ord' vm p) -> adj_of ord vm lines = adj_of ord' vm lines.
Proof.
  unfold adj_of. generalize (Ok [] : res (list (Z * list Z))). induction lines as [|l t IH]; intros acc H; [reflexivity|]. cbn [fold_left].
  replace (m <- acc ;; match l with p1 :: p2 :: _ => v1 <- find_vertex ord vm p1 ;; v2 <- find_vertex ord vm p2 ;; Ok (adj_insert v2 v1 (adj_insert v1 v2 m)) | _ => UB end)
    with (m <- acc ;; match l with p1 :: p2 :: _ => v1 <- find_vertex ord' vm p1 ;; v2 <- find_vertex ord' vm p2 ;; Ok (adj_insert v2 v1 (adj_insert v1 v2 m)) | _ => UB end).
  - apply IH. intros p Hp. apply H. cbn. apply in_or_app. auto.
  - destruct acc; cbn [bind]; try reflexivity. destruct l as [|p1 [|p2 l]]; try reflexivity. rewrite !H by (cbn; auto). reflexivity.
Qed.

Lemma order_irrelevant fuel ord ord' (lines : list (list (Geo F))) : any_order ord -> any_order ord' ->
  (forall p q r, In p (List.concat lines) -> In q (List.concat lines) -> In r (List.concat lines) ->
     same_point p q = true -> same_point p r = true -> same_point r q = true /\ same_point q r = true) ->
  parse_graph fuel ord lines = parse_graph fuel ord' lines.
Proof.
  intros O O' T. unfold parse_graph. destruct (extract fuel 0 (List.concat lines)) as [vm| | |] eqn:X; cbn [bind]; try reflexivity.
  rewrite (@adj_order ord ord' vm lines); [reflexivity|]. intros p Hp. apply find_unique; try assumption.
  intros e e' He He' S S'. destruct (extract_spec _ _ _ X) as (_ & B & C & _). destruct (B e He) as [P _], (B e' He') as [P' _].
  destruct (T p (snd e) (snd e') Hp P P' S S') as [S1 S2]. apply In_nth_error in He, He'. destruct He as [i Hi], He' as [j Hj].
  assert (Srt : forall (l : list (Z * Geo F)) i j a b, StronglySorted (fun e e' => same_point (snd e') (snd e) = false) l ->
    (i < j)%nat -> nth_error l i = Some a -> nth_error l j = Some b -> same_point (snd b) (snd a) = false).
  { clear. induction l as [|x l IH]; intros [|i] [|j] a b H L Ha Hb; cbn in *; try lia; try discriminate; inversion H as [|? ? H1 H2]; subst.
    - injection Ha as ->. rewrite Forall_forall in H2. apply H2. eapply nth_error_In; exact Hb.
    - eapply IH; [exact H1| |exact Ha|exact Hb]. lia. }
  destruct (Nat.lt_trichotomy i j) as [L|[->|L]]; [|congruence|].
  - rewrite (Srt _ _ _ _ _ C L Hi Hj) in S1. discriminate.
  - rewrite (Srt _ _ _ _ _ C L Hj Hi) in S2. discriminate.
Qed.

(** a line of fewer than two points *)
Lemma short_line fuel ord (lines : list (list (Geo F))) vm : any_order ord -> extract fuel 0 (List.concat lines) = Ok vm ->
  (exists l, In l lines /\ (List.length l < 2)%nat) -> parse_graph fuel ord lines = UB.
Proof.
  intros O X Sh. unfold parse_graph. rewrite X. cbn [bind]. assert (A : adj_of ord vm lines = UB); [|rewrite A; reflexivity].
  destruct (extract_spec _ _ _ X) as (_ & _ & _ & D).
  assert (G : forall ls acc, incl ls lines -> acc = UB \/ ((exists m, acc = Ok m) /\ exists l, In l ls /\ (List.length l < 2)%nat) ->
    fold_left (fun acc line => m <- acc ;; match line with p1 :: p2 :: _ => v1 <- find_vertex ord vm p1 ;; v2 <- find_vertex ord vm p2 ;; Ok (adj_insert v2 v1 (adj_insert v1 v2 m)) | _ => UB end) ls acc = UB).
  { induction ls as [|l t IH]; intros acc I H; cbn [fold_left].
    - destruct H as [H|[_ (l & [] & _)]]. exact H.
    - apply IH; [intros x Hx; apply I; right; exact Hx|]. destruct H as [->|[[m ->] (x & Hx & Lx)]]; [left; reflexivity|]. cbn [bind].
      destruct l as [|p1 [|p2 l]]; [left; reflexivity..|]. destruct Hx as [<-|Hx]; [cbn in Lx; lia|].
      assert (Hc : forall p, In p (p1 :: p2 :: l) -> In p (List.concat lines)).
      { intros p Hp. apply in_concat. exists (p1 :: p2 :: l). split; [apply I; left; reflexivity|exact Hp]. }
      destruct (@find_vertex_ok _ _ ord vm p1 O (D p1 (Hc p1 (or_introl eq_refl)))) as (v1 & q1 & -> & _). cbn [bind].
      destruct (@find_vertex_ok _ _ ord vm p2 O (D p2 (Hc p2 (or_intror (or_introl eq_refl))))) as (v2 & q2 & -> & _). cbn [bind].
      right. split; [eauto|]. exists x. auto. }
  unfold adj_of. apply G; [intros x Hx; exact Hx|]. right. split; [eauto|exact Sh].
Qed.
End Order.

(** over the reals *)
Lemma order_real fuel ord ord' (lines : list (list pt)) : any_order ord -> any_order ord' ->
  (forall p q, In p (List.concat lines) -> In q (List.concat lines) -> (gdist p q < 2 / 10)%R -> (gdist p q < 1 / 10)%R) ->
  parse_graph fuel ord (map (map rx_geo) lines) = parse_graph fuel ord' (map (map rx_geo) lines).
Proof.
  intros O O' G. apply order_irrelevant; try assumption. rewrite <- concat_map. intros p q r Hp Hq Hr S1 S2.
  apply in_map_iff in Hp, Hq, Hr. destruct Hp as (a & <- & Ha), Hq as (b & <- & Hb), Hr as (c & <- & Hc).
  rewrite same_real in *. apply Rltb_true in S1, S2. assert (T := gdist_triangle b a c). rewrite (gdist_sym b a) in T.
  assert (H : (gdist b c < 1 / 10)%R) by (apply G; [assumption|assumption|lra]). rewrite !same_real.
  split; [rewrite (gdist_sym c b)|]; apply Rltb_true; exact H.
Qed.

(** * Files *)
Section Files.
Context {F : Type} {NF : Num F} {A : Type}.

Lemma fingerprints_total es : (forall e x, In e es -> counted (je_vals e) x -> no_overflow x) -> exists fp, fingerprints (NF := NF) es = Ok fp.
Proof.
  unfold fingerprints. generalize ([] : list (string * sigstat F)). induction es as [|e t IH]; intros m H; [eexists; reflexivity|]. cbn [fold_left bind].
  destruct (stat_total (F := F) (je_type e) (je_vals e)) as [[_ [st ->]]|[(x & Hx & N) _]]; [|exfalso; apply N, (H e x (or_introl eq_refl) Hx)].
  cbn [bind]. apply IH. intros e' x He. apply H. right; exact He.
Qed.

Lemma graph_total fuel ord lines : any_order ord -> readable fuel (JGraph "" lines : jfeature F A) -> exists g, parse_graph fuel ord lines = Ok g /\ graph_built g.
Proof.
  intros O (T & S & L). destruct (@extract_total _ _ fuel 0%Z (List.concat lines) S L) as [vm X].
  destruct (@graph_main _ _ fuel ord lines vm O T X) as (g & R & B & _). eauto.
Qed.

Lemma geojson_total geom fuel ord (fs : list (jfeature F A)) : any_order ord -> Forall (readable fuel) fs -> exists gs, parse_geojson geom fuel ord fs = Ok gs.
Proof.
  intros O H. unfold parse_geojson. cbv zeta. assert (G : exists m, fold_left (add_feature fuel ord) fs (Ok (mkMaps [] [] [])) = Ok m).
  { generalize (mkMaps (F := F) [] [] []). induction H as [|f t Hf Ht IH]; intros m; [eexists; reflexivity|]. cbn [fold_left add_feature bind].
    destruct f as [l a0|l lines|l i ty x1 x2 o1 o2 o3|l i x1 x2 es|]; try apply IH.
    - destruct (graph_total O Hf) as (g & -> & _). cbn [bind]. apply IH.
    - destruct (fingerprints_total es Hf) as [fp ->]. cbn [bind]. apply IH. }
  destruct G as [m ->]. cbn [bind]. eauto.
Qed.

(** the collector takes every level read from a file *)
Lemma graph0_built : graph_built (graph0 : graph (Geo F)).
Proof. constructor. Qed.

Lemma geojson_collected geom fuel ord (fs : list (jfeature F A)) gs : any_order ord -> Forall (readable fuel) fs ->
  parse_geojson geom fuel ord fs = Ok gs -> (exists c, add_geo_levels col0 gs = Ok c) /\ NoDup (map (@gl_id F) gs).
Proof.
  intros O H R. destruct (@geojson_exact _ _ _ _ _ geom fs _ R) as (S & _ & P). split.
  - apply collector_total. apply Forall_forall. intros g Hg. destruct (P g Hg) as (_ & _ & _ & _ & [(lines & Hf & Hr)|[_ ->]]); [|apply graph0_built].
    destruct Hf as (pre & post & E & _). rewrite Forall_forall in H. assert (Hl : readable fuel (JGraph (gl_id g) lines : jfeature F A)) by (apply H; rewrite E; apply in_or_app; right; left; reflexivity).
    destruct (graph_total O Hl) as (g' & Hg' & B). replace (gl_graph g) with g' by congruence. exact B.
  - clear - S. induction S as [|x t S IH Hx]; constructor; [|exact IH]. intros Hin. rewrite Forall_forall in Hx. specialize (Hx _ Hin).
    rewrite str_ltb_irrefl in Hx. discriminate.
Qed.
End Files.

(** * Messages *)
Lemma unknown_rejected {F} {NF : Num F} {NO : NumOrd F} (s : settings F) (c : collector F) ts :
  rejected s c (mkSt (MRadio (mkRadio WIFI "" f0 f0 f0 f0)) ts).
Proof.
  eexists. split; [reflexivity|]. unfold accepted_radio. cbn [r_type r_id r_rssi]. intros (_ & _ & H). rewrite flt_irrefl in H.
  destruct (s_mtype s); intuition discriminate.
Qed.
