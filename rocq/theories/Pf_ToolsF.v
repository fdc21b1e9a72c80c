(** Fingerprints, features and log messages of the verification tools. *)
From Coq Require Import Lia Sorted Permutation Reals Lra.
From Verif Require Import Lib NumReal LibR Tools Spec_Geo Spec_Tools Pf_Geo.
Set Implicit Arguments.
Local Open Scope string_scope.
Local Open Scope list_scope.

(** * Fingerprints *)
Definition zlt_keys (m : list (Z * Z)) : Prop := StronglySorted Z.lt (map fst m).

Lemma dist_insert_key r c m k : In k (map fst (dist_insert r c m)) <-> k = r \/ In k (map fst m).
Proof.
  induction m as [|[k' d] t IH]; cbn [dist_insert]; [cbn; intuition|]. destruct (Z.ltb_spec r k'); [cbn; intuition|].
  destruct (Z.ltb_spec k' r); cbn; [rewrite IH; intuition|]. assert (r = k') by lia. subst k'. intuition.
Qed.
Lemma dist_insert_sorted r c m : zlt_keys m -> zlt_keys (dist_insert r c m).
Proof.
  unfold zlt_keys. induction m as [|[k d] t IH]; cbn [dist_insert]; intros H; [repeat constructor|].
  cbn [map fst] in H. inversion H as [|? ? S A]; subst. destruct (Z.ltb_spec r k); [|destruct (Z.ltb_spec k r)]; cbn [map fst].
  - constructor; [exact H|]. constructor; [assumption|]. eapply Forall_impl; [|exact A]. cbn; intros; lia.
  - constructor; [apply IH, S|]. apply Forall_forall. intros x Hx. apply dist_insert_key in Hx.
    destruct Hx as [->|Hx]; [assumption|]. rewrite Forall_forall in A. apply A, Hx.
  - exact H.
Qed.
Lemma dist_insert_in r c m e : zlt_keys m -> (In e (dist_insert r c m) <-> In e m \/ (e = (r, c) /\ ~ In r (map fst m))).
Proof.
  unfold zlt_keys. induction m as [|[k d] t IH]; cbn [dist_insert]; intros H; [cbn; intuition|].
  cbn [map fst] in H. inversion H as [|? ? S A]; subst. rewrite Forall_forall in A. destruct (Z.ltb_spec r k); [|destruct (Z.ltb_spec k r)]; cbn [map fst In].
  - split; [|intuition]. intros [<-|[<-|K]]; auto. right. split; [reflexivity|]. intros [->|K]; [lia|]. apply A in K. lia.
  - rewrite (IH S). split; [|intuition]. intros [<-|[K|[-> K]]]; auto. right. split; [reflexivity|]. intros [->|K']; [lia|contradiction].
  - assert (r = k) by lia. subst k. split; [auto|]. intros [K|[_ K]]; [exact K|]. exfalso. apply K. left; reflexivity.
Qed.

Lemma first_with_app {A} (q : A -> Prop) l x e : first_with q (l ++ [x]) e <-> first_with q l e \/ (e = x /\ q x /\ Forall (fun y => ~ q y) l).
Proof.
  split.
  - intros (pre & post & E & Q & N). destruct post as [|y post] using rev_ind.
    + right. apply app_inj_tail in E. destruct E as [-> ->]. auto.
    + clear IHpost. rewrite app_comm_cons, app_assoc in E. apply app_inj_tail in E. destruct E as [-> ->]. left. exists pre, post. auto.
  - intros [(pre & post & -> & Q & N)|(-> & Q & N)].
    + exists pre, (post ++ [x]). rewrite <- app_assoc. auto.
    + exists l, []. auto.
Qed.

Lemma distribution_spec vals : zlt_keys (distribution vals) /\ (forall e, In e (distribution vals) <-> counted vals e) /\
  (forall r, In r (map fst (distribution vals)) <-> In r (map fst vals)).
Proof.
  unfold distribution. induction vals as [|[r c] vals IH] using rev_ind.
  - cbn. split; [constructor|]. split; [|tauto]. intros e. split; [intros []|]. intros (pre & post & E & _). destruct pre; discriminate.
  - rewrite fold_left_app. cbn [fold_left fst snd]. destruct IH as (S & I & K). split; [apply dist_insert_sorted, S|]. split.
    + intros e. rewrite (dist_insert_in _ _ _ S), I, K. unfold counted. rewrite first_with_app. split.
      * intros [H|[-> H]]; [left; exact H|]. right. split; [reflexivity|]. split; [reflexivity|]. apply Forall_forall. intros y Hy Ey. apply H. cbn in Ey. rewrite <- Ey. apply in_map, Hy.
      * intros [H|(-> & _ & H)]; [left; exact H|]. right. split; [reflexivity|]. intros Hr. apply in_map_iff in Hr. destruct Hr as (y & Ey & Hy).
        rewrite Forall_forall in H. exact (H y Hy Ey).
    + intros x. rewrite dist_insert_key, K, map_app, in_app_iff. cbn. intuition.
Qed.

Lemma int_ok_spec z : int_ok z = true <-> in_int z.
Proof. unfold int_ok, in_int. rewrite andb_true_iff, Z.leb_le, Z.ltb_lt. tauto. Qed.
Lemma products_ok_spec e : products_ok e = true <-> no_overflow e.
Proof. destruct e as [r c]. unfold products_ok, no_overflow. rewrite !andb_true_iff, !int_ok_spec. tauto. Qed.

Lemma stat_total {F} {NF : Num F} ty vals :
  ((forall e, counted vals e -> no_overflow e) /\ exists st : sigstat F, signal_stat ty vals = Ok st) \/
  ((exists e, counted vals e /\ ~ no_overflow e) /\ signal_stat ty vals = (UB : res (sigstat F))).
Proof.
  destruct (distribution_spec vals) as (_ & I & _). unfold signal_stat. destruct (forallb products_ok (distribution vals)) eqn:E.
  - left. rewrite forallb_forall in E. split; [|eauto]. intros e H. apply products_ok_spec, E, I, H.
  - right. split; [|reflexivity]. assert (X : existsb (fun e => negb (products_ok e)) (distribution vals) = true).
    { clear - E. induction (distribution vals) as [|x t IH]; [discriminate|]. cbn in *. destruct (products_ok x); [apply IH, E|reflexivity]. }
    apply existsb_exists in X. destruct X as (e & H & N). exists e. split; [apply I, H|]. intros K. apply products_ok_spec in K. rewrite K in N. discriminate.
Qed.

Lemma zsum_fold {A} (f : A -> Z) l : forall s, fold_left (fun n e => (n + f e)%Z) l s = (s + zsum f l)%Z.
Proof. induction l as [|x t IH]; intros s; cbn [fold_left zsum fold_right]; [lia|]. rewrite IH. unfold zsum. lia. Qed.
Lemma zsum_perm {A} (f : A -> Z) l l' : Permutation l l' -> zsum f l = zsum f l'.
Proof. unfold zsum. induction 1; cbn [fold_right]; lia. Qed.
Lemma zsum_IZR {A} (f : A -> Z) l : rsum (map (fun x => IZR (f x)) l) = IZR (zsum f l).
Proof. induction l as [|x t IH]; cbn [map zsum fold_right]; [reflexivity|]. rewrite rsum_cons, IH, plus_IZR. reflexivity. Qed.

Section Mean.
Local Open Scope R_scope.
Variables (ty : txtype) (vals d : list (Z * Z)).
Hypothesis ND : NoDup d.
Hypothesis Hd : forall e, In e d <-> counted vals e.
Hypothesis Ov : forall e, In e d -> no_overflow e.
Hypothesis Pos : (0 <= zsum snd d < 2 ^ 64)%Z.

Lemma dist_perm : Permutation (distribution vals) d.
Proof.
  destruct (distribution_spec vals) as (S & I & _). apply NoDup_Permutation; [|exact ND|intros e; rewrite I, Hd; reflexivity].
  apply (NoDup_map_inv fst). clear - S. unfold zlt_keys in S. induction S as [|x t S IH Hx]; constructor; [|exact IH].
  intros Hin. rewrite Forall_forall in Hx. specialize (Hx _ Hin). lia.
Qed.

Lemma stat_real : @signal_stat RX _ ty vals =
  Ok (mkSS ty (@fdiv RX _ (Some (IZR (zsum (fun e => - fst e * snd e)%Z d))) (fofZ (zsum snd d))) (Some 0 : RX) (zsum snd d)).
Proof.
  destruct (distribution_spec vals) as (_ & I & _). unfold signal_stat.
  replace (forallb products_ok (distribution vals)) with true.
  2:{ symmetry. apply forallb_forall. intros e H. apply products_ok_spec, Ov, Hd, I, H. }
  rewrite (zsum_fold (fun e => snd e)), Z.add_0_l, (zsum_perm _ dist_perm), Z.mod_small by exact Pos.
  rewrite rx_f0, (@fsum_from _ (fun e => fofZ (- fst e * snd e)) (fun e => IZR (- fst e * snd e))) by reflexivity.
  rewrite zsum_IZR, (zsum_perm _ dist_perm), Rplus_0_l. reflexivity.
Qed.

Lemma wmean_bounds lo hi l : (forall e, In e l -> (0 <= snd e)%Z /\ ((0 < snd e)%Z -> lo <= IZR (- fst e) <= hi)) ->
  lo * IZR (zsum snd l) <= IZR (zsum (fun e => - fst e * snd e)%Z l) <= hi * IZR (zsum snd l).
Proof.
  induction l as [|e t IH]; intros H; [cbn; lra|]. cbn [zsum fold_right]. fold (zsum snd t). fold (zsum (fun e => - fst e * snd e)%Z t).
  specialize (IH (fun x Hx => H x (or_intror Hx))). destruct (H e (or_introl eq_refl)) as [C B]. rewrite !plus_IZR, mult_IZR.
  destruct (Z.eq_dec (snd e) 0) as [->|N]; [lra|]. specialize (B ltac:(lia)). assert (P : 0 < IZR (snd e)) by (apply IZR_lt; lia).
  assert (lo * IZR (snd e) <= IZR (- fst e) * IZR (snd e)) by (apply Rmult_le_compat_r; lra).
  assert (IZR (- fst e) * IZR (snd e) <= hi * IZR (snd e)) by (apply Rmult_le_compat_r; lra). lra.
Qed.

Lemma stat_mean : (0 < zsum snd d)%Z ->
  exists m, @signal_stat RX _ ty vals = Ok (mkSS ty (Some m : RX) (Some 0) (zsum snd d)) /\
    m * IZR (zsum snd d) = IZR (zsum (fun e => - fst e * snd e)%Z d) /\
    (forall lo hi, (forall e, In e d -> (0 <= snd e)%Z /\ ((0 < snd e)%Z -> lo <= IZR (- fst e) <= hi)) -> lo <= m <= hi).
Proof.
  intros P. assert (P' : 0 < IZR (zsum snd d)) by (apply IZR_lt, P). rewrite stat_real, rx_ofZ, rx_div by lra.
  eexists. split; [reflexivity|]. split; [field; lra|]. intros lo hi B. apply wmean_bounds in B. split.
  - apply Rmult_le_reg_r with (IZR (zsum snd d)); [exact P'|]. unfold Rdiv. rewrite Rmult_assoc, Rinv_l by lra. lra.
  - apply Rmult_le_reg_r with (IZR (zsum snd d)); [exact P'|]. unfold Rdiv. rewrite Rmult_assoc, Rinv_l by lra. lra.
Qed.

Lemma stat_zero : zsum snd d = 0%Z -> @signal_stat RX _ ty vals = Ok (mkSS ty (None : RX) (Some 0) 0).
Proof. intros Z. rewrite stat_real, Z. repeat f_equal. cbn. replace (Reqb 0 0) with true by (symmetry; apply Reqb_true; reflexivity). reflexivity. Qed.
End Mean.

(** * Features *)
Lemma alookup_fp_insert {V} k k' (v : V) m : alookup k (fp_insert k' v m) =
  match alookup k m with Some x => Some x | None => if String.eqb k k' then Some v else None end.
Proof.
  unfold fp_insert, amem. destruct (String.eqb_spec k k') as [->|N].
  - destruct (alookup k' m) eqn:E; [exact E|]. apply alookup_mset_same.
  - destruct (alookup k' m); [destruct (alookup k m); reflexivity|]. rewrite alookup_mset_other by exact N. destruct (alookup k m); reflexivity.
Qed.
Lemma fp_insert_sorted {V} k (v : V) m : keys_sorted m -> keys_sorted (fp_insert k v m).
Proof. unfold fp_insert. destruct (amem k m); [auto|apply mset_sorted]. Qed.
Lemma fp_insert_keys {V} k (v : V) m x : In x (map fst (fp_insert k v m)) <-> x = k \/ In x (map fst m).
Proof.
  unfold fp_insert. destruct (amem k m) eqn:E; [|apply keys_mset]. apply amem_true in E. split; [auto|]. intros [->|H]; assumption.
Qed.

(** fingerprints: the first entry of every transmitter *)
Lemma fingerprints_spec {F} {NF : Num F} es fp : fingerprints es = Ok fp ->
  keys_sorted fp /\ (forall b, In b (map fst fp) <-> exists e, In e es /\ je_bssid e = b) /\
  (forall b st, alookup b fp = Some st <-> exists e, first_with (fun e => je_bssid e = b) es e /\ signal_stat (je_type e) (je_vals e) = Ok (st : sigstat F)).
Proof.
  unfold fingerprints. revert fp. induction es as [|e es IH] using rev_ind; intros fp R.
  - cbn in R. injection R as <-. split; [constructor|]. split; [intros b; split; [intros []|intros (e & [] & _)]|].
    intros b st. split; [discriminate|]. intros (e & (pre & post & E & _) & _). destruct pre; discriminate.
  - rewrite fold_left_app in R. cbn [fold_left] in R. destruct (fold_left _ es (Ok [])) as [m| | |] eqn:Em; cbn [bind] in R; try discriminate.
    destruct (signal_stat (je_type e) (je_vals e)) as [s| | |] eqn:Es; cbn [bind] in R; try discriminate. injection R as <-.
    destruct (IH m eq_refl) as (S & K & L). split; [apply fp_insert_sorted, S|]. split.
    + intros b. rewrite fp_insert_keys, K. split.
      * intros [->|(x & Hx & E)]; [exists e; split; [apply in_or_app; right; left; reflexivity|reflexivity]|exists x; split; [apply in_or_app; auto|exact E]].
      * intros (x & Hx & E). apply in_app_or in Hx. destruct Hx as [Hx|[<-|[]]]; [right; exists x; auto|left; auto].
    + intros b st. rewrite alookup_fp_insert. destruct (alookup b m) as [s0|] eqn:E0.
      * assert (X := E0). apply L in X. destruct X as (x & Hx & Sx). split.
        -- intros E. injection E as <-. exists x. split; [apply first_with_app; auto|exact Sx].
        -- intros (y & Hy & Sy). apply first_with_app in Hy. destruct Hy as [Hy|(-> & Q & N)].
           ++ rewrite <- E0. apply L. exists y. auto.
           ++ exfalso. destruct Hx as (pre & post & -> & Qx & _). rewrite Forall_forall in N. apply (N x); [apply in_or_app; right; left; reflexivity|exact Qx].
      * assert (N : forall x, In x es -> je_bssid x <> b).
        { intros x Hx E. apply alookup_none in E0. apply E0. apply K. exists x. auto. }
        destruct (String.eqb_spec b (je_bssid e)) as [->|Nb].
        -- split.
           ++ intros E. injection E as <-. exists e. split; [|exact Es]. apply first_with_app. right. split; [reflexivity|]. split; [reflexivity|]. apply Forall_forall. exact N.
           ++ intros (y & Hy & Sy). apply first_with_app in Hy. destruct Hy as [(pre & post & -> & Q & _)|(-> & _)]; [|congruence].
              exfalso. apply (N y); [apply in_or_app; right; left; reflexivity|exact Q].
        -- split; [discriminate|]. intros (y & Hy & Sy). apply first_with_app in Hy. destruct Hy as [(pre & post & -> & Q & _)|(-> & Q & _)]; [|congruence].
           exfalso. apply (N y); [apply in_or_app; right; left; reflexivity|exact Q].
Qed.

Section Feat.
Context {F : Type} {NF : Num F} {A : Type}.
Implicit Types (fs : list (jfeature F A)) (lv : string).

Lemma areas_spec fs : let m := fold_left (@add_area F A) fs [] in
  keys_sorted m /\ forall lv a, alookup lv m = Some a <-> first_with (is_level lv) fs (JLevel lv a).
Proof.
  cbv zeta. induction fs as [|f fs IH] using rev_ind.
  - cbn. split; [constructor|]. intros lv a. split; [discriminate|]. intros (pre & post & E & _). destruct pre; discriminate.
  - rewrite fold_left_app. cbn [fold_left]. destruct IH as [S L]. set (m := fold_left (@add_area F A) fs []) in *.
    assert (NoL : forall lv, alookup lv m = None <-> Forall (fun y => ~ is_level lv y) fs).
    { intros lv. split.
      - intros E. apply Forall_forall. intros y Hy [a ->].
        assert (X : exists z, first_with (is_level lv) fs z).
        { clear - Hy. induction fs as [|x t IH]; [destruct Hy|]. assert (D : is_level lv x \/ ~ is_level lv x).
          { unfold is_level. destruct x as [l a'|l g|l i ty x1 x2 o1 o2 o3|l i x1 x2 es|]; try (right; intros [a'' E]; discriminate E). destruct (String.eqb_spec l lv) as [->|N]; [left; eauto|right; intros [a'' E]; injection E; congruence]. }
          destruct D as [D|D]; [exists x, [], t; auto|]. destruct Hy as [->|Hy]; [exfalso; apply D; exists a; reflexivity|].
          destruct (IH Hy) as (z & pre & post & -> & Q & N). exists z, (x :: pre), post. split; [reflexivity|]. split; [exact Q|constructor; assumption]. }
        destruct X as (z & X). assert (Z := X). destruct Z as (_ & _ & _ & [a' ->] & _). apply L in X. congruence.
      - intros N. destruct (alookup lv m) as [a|] eqn:E; [|reflexivity]. apply L in E. destruct E as (pre & post & -> & Q & _).
        rewrite Forall_forall in N. exfalso. apply (N (JLevel lv a)); [apply in_or_app; right; left; reflexivity|exact Q]. }
    destruct f as [l a0|l g|l i ty x1 x2 o1 o2 o3|l i x1 x2 es|]; cbn [add_area]; try (split; [exact S|]; intros lv a; rewrite first_with_app, L; split; [auto|]; intros [H|(_ & [a' H] & _)]; [exact H|discriminate H]).
    split; [apply fp_insert_sorted, S|]. intros lv a. rewrite first_with_app, alookup_fp_insert. destruct (alookup lv m) as [x|] eqn:E.
    + rewrite <- L, E. split; [auto|]. intros [H|(H & _ & N)]; [exact H|]. injection H as <- <-. apply NoL in N. congruence.
    + destruct (String.eqb_spec lv l) as [->|N].
      * split.
        -- intros H. injection H as <-. right. split; [reflexivity|]. split; [exists a0; reflexivity|apply NoL, E].
        -- intros [H|(H & _)]; [apply L in H; congruence|injection H as <-; reflexivity].
      * split; [discriminate|]. intros [H|(H & _)]; [apply L in H; congruence|injection H as <- _; congruence].
Qed.

Variables (fuel : nat) (ord : list (Z * Geo F) -> list (Z * Geo F)).

Lemma graph_unique lv fs f f' : first_with (is_graph lv) fs f -> first_with (is_graph lv) fs f' -> f = f'.
Proof.
  intros (p1 & q1 & E1 & Q1 & N1) (p2 & q2 & E2 & Q2 & N2). subst fs. revert p2 q2 E2 N2. induction p1 as [|x p1 IH]; intros p2 q2 E2 N2.
  - destruct p2 as [|y p2]; [injection E2; auto|]. injection E2 as <- _. inversion N2; subst; contradiction.
  - destruct p2 as [|y p2]; injection E2 as -> E2; [inversion N1; subst; contradiction|]. inversion N1; inversion N2; subst. eapply IH; eassumption.
Qed.

Lemma maps_spec fs m : fold_left (add_feature fuel ord) fs (Ok (mkMaps [] [] [])) = Ok m -> forall lv,
  Forall2 reads_tx (filter (is_tx lv) fs) (mget [] lv (jm_txs m)) /\
  Forall2 reads_rp (filter (is_rp lv) fs) (mget [] lv (jm_rps m)) /\
  (forall g, alookup lv (jm_graphs m) = Some g <-> exists lines, first_with (is_graph lv) fs (JGraph lv lines) /\ parse_graph fuel ord lines = Ok g) /\
  (alookup lv (jm_graphs m) = None <-> Forall (fun f => ~ is_graph lv f) fs).
Proof.
  revert m. induction fs as [|f fs IH] using rev_ind; intros m R lv.
  - cbn in R. injection R as <-. cbn. split; [constructor|]. split; [constructor|]. split.
    + intros g. split; [discriminate|]. intros (l & (pre & post & E & _) & _). destruct pre; discriminate.
    + split; [constructor|reflexivity].
  - rewrite fold_left_app in R. cbn [fold_left] in R. destruct (fold_left _ fs _) as [m0| | |] eqn:E0; cbn [add_feature bind] in R; try discriminate.
    destruct (IH m0 eq_refl lv) as (T & P & G & N). rewrite !filter_app.
    assert (Skip : forall g : graph (Geo F), (forall l, f <> JGraph lv l) ->
      (alookup lv (jm_graphs m0) = Some g <-> exists lines, first_with (is_graph lv) (fs ++ [f]) (JGraph lv lines) /\ parse_graph fuel ord lines = Ok g)).
    { intros g Nf. rewrite G. split; intros (l & H & K); exists l; (split; [|exact K]); [apply first_with_app; auto|].
      apply first_with_app in H. destruct H as [H|(H & _)]; [exact H|]. exfalso. exact (Nf l (eq_sym H)). }
    assert (SkipN : (forall l, f <> JGraph lv l) -> (alookup lv (jm_graphs m0) = None <-> Forall (fun f => ~ is_graph lv f) (fs ++ [f]))).
    { intros Nf. rewrite N, Forall_app. split; [|tauto]. intros H. split; [exact H|]. constructor; [|constructor]. intros [l H']. exact (Nf l H'). }
    destruct f as [l a0|l lines|l i ty x1 x2 o1 o2 o3|l i x1 x2 es|].
    + injection R as <-. cbn [filter is_tx is_rp]. rewrite !app_nil_r. split; [exact T|]. split; [exact P|]. split; [intros g; apply Skip; discriminate|apply SkipN; discriminate].
    + cbn [bind] in R. destruct (parse_graph fuel ord lines) as [g0| | |] eqn:Eg; cbn [bind] in R; try discriminate. injection R as <-. cbn [filter is_tx is_rp jm_txs jm_rps jm_graphs].
      rewrite !app_nil_r. split; [exact T|]. split; [exact P|]. rewrite alookup_fp_insert. destruct (String.eqb_spec lv l) as [->|Nl].
      * destruct (alookup l (jm_graphs m0)) as [g1|] eqn:E1.
        -- split.
           ++ intros g. rewrite G. split; intros (ls & H & K); exists ls; (split; [|exact K]); [apply first_with_app; auto|].
              apply first_with_app in H. destruct H as [H|(_ & _ & H)]; [exact H|]. apply N in H. congruence.
           ++ split; [discriminate|]. intros H. apply Forall_app in H. destruct H as [H _]. apply N in H. congruence.
        -- assert (Nn := proj1 N eq_refl). split.
           ++ intros g. split.
              ** intros H. injection H as <-. exists lines. split; [|exact Eg]. apply first_with_app. right. split; [reflexivity|]. split; [exists lines; reflexivity|exact Nn].
              ** intros (ls & H & K). apply first_with_app in H. destruct H as [(pre & post & -> & Q & _)|(H & _)]; [|injection H as <-; congruence].
                 exfalso. rewrite Forall_forall in Nn. apply (Nn (JGraph l ls)); [apply in_or_app; right; left; reflexivity|exact Q].
           ++ split; [discriminate|]. intros H. apply Forall_app in H. destruct H as [_ H]. inversion H as [|? ? Q _]; subst. exfalso. apply Q. exists lines. reflexivity.
      * replace (match alookup lv (jm_graphs m0) with Some x => Some x | None => None end) with (alookup lv (jm_graphs m0)) by (destruct (alookup lv (jm_graphs m0)); reflexivity).
        split; [intros g; apply Skip|apply SkipN]; intros ls H; injection H; congruence.
    + injection R as <-. cbn [filter is_tx is_rp jm_txs jm_rps jm_graphs]. rewrite app_nil_r. split.
      * unfold push_at. destruct (String.eqb_spec l lv) as [->|Nl].
        -- rewrite mget_mset_same. apply Forall2_app; [exact T|]. constructor; [|constructor].
           exists lv, i, ty, x1, x2, o1, o2, o3. unfold parse_tx, opt_or. cbn. repeat split.
        -- rewrite mget_mset_other by congruence. rewrite app_nil_r. exact T.
      * split; [exact P|]. split; [intros g; apply Skip; discriminate|apply SkipN; discriminate].
    + destruct (fingerprints es) as [fp| | |] eqn:Ef; cbn [bind] in R; try discriminate. injection R as <-. cbn [filter is_tx is_rp jm_txs jm_rps jm_graphs]. rewrite app_nil_r.
      split; [exact T|]. split.
      * unfold push_at. destruct (String.eqb_spec l lv) as [->|Nl].
        -- rewrite mget_mset_same. apply Forall2_app; [exact P|]. constructor; [|constructor]. exists lv, i, x1, x2, es. cbn. auto.
        -- rewrite mget_mset_other by congruence. rewrite app_nil_r. exact P.
      * split; [intros g; apply Skip; discriminate|apply SkipN; discriminate].
    + injection R as <-. cbn [filter is_tx is_rp]. rewrite !app_nil_r. split; [exact T|]. split; [exact P|]. split; [intros g; apply Skip; discriminate|apply SkipN; discriminate].
Qed.

Theorem geojson_exact (geom : A -> box F * (F -> F -> bool)) fs gs : parse_geojson geom fuel ord fs = Ok gs ->
  StronglySorted (fun a b => String.ltb a b = true) (map (@gl_id F) gs) /\
  (forall lv, In lv (map (@gl_id F) gs) <-> exists a, In (JLevel lv a) fs) /\
  (forall g, In g gs -> gl_alt g = fofZ 100 /\
     (exists a, first_with (is_level (gl_id g)) fs (JLevel (gl_id g) a) /\ gl_box g = fst (geom a) /\ gl_allowed g = snd (geom a)) /\
     Forall2 reads_tx (filter (is_tx (gl_id g)) fs) (gl_txs g) /\
     Forall2 reads_rp (filter (is_rp (gl_id g)) fs) (gl_rps g) /\
     ((exists lines, first_with (is_graph (gl_id g)) fs (JGraph (gl_id g) lines) /\ parse_graph fuel ord lines = Ok (gl_graph g)) \/
      (Forall (fun f => ~ is_graph (gl_id g) f) fs /\ gl_graph g = graph0))).
Proof.
  unfold parse_geojson. cbv zeta. destruct (areas_spec fs) as [S L]. set (am := fold_left (@add_area F A) fs []) in *.
  destruct (fold_left (add_feature fuel ord) fs (Ok (mkMaps [] [] []))) as [m| | |] eqn:E; cbn [bind]; try discriminate. intros R. injection R as <-.
  rewrite map_map. cbn [gl_id]. split; [exact S|]. split.
  - intros lv. change (map (fun x => fst x) am) with (map fst am). rewrite <- amem_true. unfold amem. destruct (alookup lv am) as [a|] eqn:Ea.
    + split; [intros _|reflexivity]. apply L in Ea. destruct Ea as (pre & post & -> & _). exists a. apply in_or_app; right; left; reflexivity.
    + split; [discriminate|]. intros [a Ha]. exfalso.
      assert (X : exists z, first_with (is_level lv) fs z).
      { clear - Ha. induction fs as [|x t IH]; [destruct Ha|]. assert (D : is_level lv x \/ ~ is_level lv x).
        { unfold is_level. destruct x as [l a'|l g|l i ty x1 x2 o1 o2 o3|l i x1 x2 es|]; try (right; intros [a'' E]; discriminate E). destruct (String.eqb_spec l lv) as [->|N]; [left; eauto|right; intros [a'' E]; injection E; congruence]. }
        destruct D as [D|D]; [exists x, [], t; auto|]. destruct Ha as [->|Ha]; [exfalso; apply D; exists a; reflexivity|].
        destruct (IH Ha) as (z & pre & post & -> & Q & N). exists z, (x :: pre), post. split; [reflexivity|]. split; [exact Q|constructor; assumption]. }
      destruct X as (z & X). assert (Z := X). destruct Z as (_ & _ & _ & [a' ->] & _). apply L in X. congruence.
  - intros g Hg. apply in_map_iff in Hg. destruct Hg as ([lv a] & <- & H). cbn [gl_id gl_alt gl_box gl_allowed gl_txs gl_rps gl_graph fst snd].
    split; [reflexivity|]. destruct (maps_spec fs E lv) as (T & P & G & N). split.
    + exists a. split; [|auto]. apply L. apply in_alookup_nodup; [apply keys_sorted_nodup, S|exact H].
    + split; [exact T|]. split; [exact P|]. unfold mget. destruct (alookup lv (jm_graphs m)) as [g|] eqn:Eg; [left; apply G; reflexivity|right; split; [apply N; reflexivity|reflexivity]].
Qed.
End Feat.

(** * Messages *)
Section Msg.
Context {F : Type} {NF : Num F}.

Lemma decode_eddystone (j : jmsg F) m r : decode j = Ok m -> st_data m = MRadio r -> r_type r <> EDDYSTONE.
Proof.
  unfold decode. destruct (jg_ts j) as [ts|]; [|discriminate]. destruct (jg_type j) as [t|]; [|discriminate]. cbn [at_or_throw bind].
  destruct (_ && _)%bool; [destruct (jg_values j); cbn [at_or_throw bind]; intros E; [injection E as <-|discriminate E]; discriminate|].
  destruct (_ && _)%bool.
  - destruct (jg_bssid j); cbn [at_or_throw bind]; intros E; [|discriminate E]. injection E as <-. cbn. intros E. injection E as <-. cbn.
    unfold radio_type_of. repeat (destruct (_ =? _)%Z; [discriminate|]). discriminate.
  - destruct (_ =? _)%Z; [destruct (jg_sent j), (jg_sats j); cbn [at_or_throw bind]; intros E; try discriminate E; injection E as <-; discriminate|].
    intros E. injection E as <-. cbn. intros E. injection E as <-. discriminate.
Qed.
End Msg.
