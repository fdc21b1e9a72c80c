(** Proofs about the stand-alone trilateration. *)
From Coq Require Import Reals Lra Lia Permutation Sorted.
From Verif Require Import Lib NumOrd NumReal LibR SaTrilat Spec_SaTrilat.
Set Implicit Arguments.

Section Gen.
Context {F : Type} {NF : Num F} {SO : Sorter}.

Lemma absorb_ok id l : forall n r k n' r', absorb id n r l = (k, n', r', false) ->
  k = filter (fun e : bmeas F => negb (String.eqb (bm_id e) id)) l /\
  Forall (fun e => negative e = false) (from_id id l) /\
  n' = (n + Z.of_nat (List.length (from_id id l)))%Z /\
  r' = fold_left (fun s e => s +! bm_rssi e) (from_id id l) r.
Proof.
  unfold from_id. induction l as [|e t IH]; cbn [absorb filter]; intros n r k n' r' H.
  - injection H as <- <- <-. cbn. repeat split; auto. lia.
  - destruct (String.eqb (bm_id e) id) eqn:E; cbn [negb].
    + destruct (negative e) eqn:N; [discriminate|]. apply IH in H as (-> & H1 & -> & ->).
      split; [reflexivity|]. split; [constructor; assumption|]. split; [cbn [List.length]; lia|reflexivity].
    + destruct (absorb id n r t) as [[[k0 n0] r0] e0] eqn:A. injection H as <- <- <- ->.
      apply IH in A as (-> & H1 & -> & ->). repeat split; assumption.
Qed.
Lemma absorb_err id l : forall n r k n' r', absorb id n r l = (k, n', r', true) ->
  exists e : bmeas F, In e l /\ negative e = true.
Proof.
  induction l as [|e t IH]; cbn [absorb]; intros n r k n' r' H; [discriminate|].
  destruct (String.eqb (bm_id e) id).
  - destruct (negative e) eqn:N; [exists e; split; [left; reflexivity|exact N]|].
    destruct (IH _ _ _ _ _ H) as (e' & H1 & H2). exists e'. split; [right|]; assumption.
  - destruct (absorb id n r t) as [[[k0 n0] r0] e0] eqn:A. injection H as <- <- <- ->.
    destruct (IH _ _ _ _ _ A) as (e' & H1 & H2). exists e'. split; [right|]; assumption.
Qed.
Lemma filter_length_le A (f : A -> bool) l : (List.length (filter f l) <= List.length l)%nat.
Proof. induction l as [|a l IH]; cbn; [lia|]. destruct (f a); cbn; lia. Qed.

Lemma from_id_other id id' (l : list (bmeas F)) : id <> id' ->
  from_id id (filter (fun e => negb (String.eqb (bm_id e) id')) l) = from_id id l.
Proof.
  intros N. unfold from_id. induction l as [|e t IH]; [reflexivity|]. cbn [filter].
  destruct (str_eqb_spec (bm_id e) id') as [E|E]; cbn [negb].
  - rewrite IH. destruct (str_eqb_spec (bm_id e) id); [congruence|reflexivity].
  - cbn [filter]. rewrite IH. reflexivity.
Qed.

(** what is left for the entries without an error *)
Definition averaged (l : list (bmeas F)) (m : bmeas F) : Prop :=
  bm_rssi m = fsum (@bm_rssi F) (from_id (bm_id m) l) /! fofZ (Z.of_nat (List.length (from_id (bm_id m) l))).

Lemma dedup_err fuel l k : (List.length l <= fuel)%nat -> dedup fuel l = (k, true) ->
  exists e : bmeas F, In e l /\ negative e = true.
Proof.
  revert l k. induction fuel as [|fuel IH]; intros [|x t] k L H; cbn [dedup] in H; try discriminate.
  destruct (negative x) eqn:N; [exists x; split; [left; reflexivity|exact N]|].
  destruct (absorb (bm_id x) 1 (f0 +! bm_rssi x) t) as [[[k0 n0] r0] e0] eqn:A. destruct e0.
  - destruct (absorb_err _ _ _ _ A) as (e & H1 & H2). exists e. split; [right|]; assumption.
  - destruct (dedup fuel k0) as [r e] eqn:D. injection H as <- ->.
    apply absorb_ok in A as (-> & _).
    apply IH in D as (e & H1 & H2).
    + apply filter_In in H1 as (H1 & _). exists e. split; [right|]; assumption.
    + cbn in L. eapply Nat.le_trans; [apply filter_length_le|lia].
Qed.

Lemma dedup_ok fuel l k : (List.length l <= fuel)%nat -> dedup fuel l = (k, false) ->
  Forall (fun e : bmeas F => negative e = false) l /\ one_per_id l k /\ Forall (averaged l) k.
Proof.
  revert l k. induction fuel as [|fuel IH]; intros [|x t] k L H; cbn [dedup] in H; try (cbn in L; lia);
    try (injection H as <-; repeat split; try constructor; intros []; fail).
  destruct (negative x) eqn:N; [discriminate|].
  destruct (absorb (bm_id x) 1 (f0 +! bm_rssi x) t) as [[[k0 n0] r0] e0] eqn:A. destruct e0; [discriminate|].
  destruct (dedup fuel k0) as [r e] eqn:D. injection H as <- ->.
  apply absorb_ok in A as (Ek & A1 & -> & ->). subst k0.
  apply IH in D as (D1 & (D2 & D3 & D4) & D5);
    [|cbn in L; eapply Nat.le_trans; [apply filter_length_le|lia]].
  assert (Hk : forall m, In m r -> bm_id m <> bm_id x).
  { intros m Hm E. assert (Hi : In (bm_id m) (ids r)) by (apply in_map; exact Hm).
    apply D3, in_map_iff in Hi as (e & He & Hi). apply filter_In in Hi as (_ & Hi).
    rewrite He, E, String.eqb_refl in Hi. discriminate. }
  split; [|split; [split; [|split]|]].
  - constructor; [exact N|]. rewrite Forall_forall in *. intros e He.
    destruct (String.eqb (bm_id e) (bm_id x)) eqn:E.
    + apply A1. apply filter_In. split; assumption.
    + apply D1. apply filter_In. rewrite E. split; [exact He|reflexivity].
  - cbn. constructor; [|exact D2]. intros Hi. apply in_map_iff in Hi as (m & Em & Hm). exact (Hk m Hm Em).
  - intros id. cbn. rewrite (D3 id). split.
    + intros [E|Hi]; [left; exact E|right]. apply in_map_iff in Hi as (e & <- & Hi).
      apply filter_In in Hi as (Hi & _). apply in_map. exact Hi.
    + intros [E|Hi]; [left; exact E|]. destruct (str_eqb_spec (bm_id x) id) as [E|E]; [left; exact E|right].
      apply in_map_iff in Hi as (e & <- & Hi). apply in_map, filter_In. split; [exact Hi|].
      destruct (str_eqb_spec (bm_id e) (bm_id x)); [congruence|reflexivity].
  - constructor.
    + exists x. repeat split. left; reflexivity.
    + rewrite Forall_forall in *. intros m Hm. destruct (D4 m Hm) as (m0 & H1 & H2).
      apply filter_In in H1 as (H1 & _). exists m0. split; [right; exact H1|exact H2].
  - constructor.
    + unfold averaged. cbn [bm_rssi bm_id]. unfold from_id at 3 4. cbn [filter]. rewrite String.eqb_refl.
      fold (from_id (bm_id x) t). unfold fsum. cbn [fold_left List.length]. f_equal. f_equal. lia.
    + rewrite Forall_forall in *. intros m Hm. specialize (D5 m Hm). unfold averaged in *. rewrite D5.
      rewrite from_id_other by (apply Hk; exact Hm). unfold from_id. cbn [filter].
      destruct (str_eqb_spec (bm_id x) (bm_id m)) as [E|E]; [|reflexivity].
      exfalso. apply (Hk m Hm). congruence.
Qed.

Lemma name_swo (l : list (bmeas F)) : strict_weak_on name_lt l.
Proof.
  unfold name_lt. split; [|split]; intros.
  - apply str_ltb_irrefl.
  - eapply str_ltb_trans; eassumption.
  - eapply str_ltb_neg_trans; eassumption.
Qed.
Lemma name_perm (l : list (bmeas F)) : Permutation l (ssort name_lt l).
Proof. apply ssort_perm, name_swo. Qed.

Lemma one_per_perm (l l' k : list (bmeas F)) : Permutation l l' -> one_per_id l' k -> one_per_id l k.
Proof.
  intros P (H1 & H2 & H3). split; [exact H1|]. split.
  - intros id. rewrite (H2 id). unfold ids. split; apply Permutation_in; [symmetry|]; apply Permutation_map; exact P.
  - eapply Forall_impl; [|exact H3]. intros m (m0 & H4 & H5). exists m0. split; [|exact H5].
    eapply Permutation_in; [symmetry; exact P|exact H4].
Qed.
Lemma one_per_distinct (l k : list (bmeas F)) : one_per_id l k -> List.length k = distinct l.
Proof.
  intros (H1 & H2 & _). unfold distinct. unfold ids in *. rewrite <- (map_length (@bm_id F) k).
  apply Permutation_length, NoDup_Permutation; [exact H1|apply NoDup_nodup|].
  intros x. rewrite nodup_In. apply H2.
Qed.

(** deleteDuplicateMeasurements *)
Lemma delete_spec (ms k : list (bmeas F)) e : delete_duplicates ms = (k, e) ->
  (e = err_in_trilater /\ exists m, In m ms /\ negative m = true) \/
  ((Forall (fun m => negative m = false) ms) /\ one_per_id ms k /\ Forall (averaged (ssort name_lt ms)) k /\
   ((e = err_no_solution /\ (distinct ms < 3)%nat) \/ (e = err_none /\ (3 <= distinct ms)%nat))).
Proof.
  unfold delete_duplicates. destruct (dedup _ _) as [k0 neg] eqn:D. intros H. injection H as <- <-. destruct neg.
  - left. split; [reflexivity|]. apply dedup_err in D; [|lia]. destruct D as (m & H1 & H2). exists m. split; [|exact H2].
    eapply Permutation_in; [symmetry; apply name_perm|exact H1].
  - right. apply dedup_ok in D; [|lia]. destruct D as (D1 & D2 & D3).
    split; [|split; [|split]].
    + rewrite Forall_forall in *. intros m Hm. apply D1. eapply Permutation_in; [apply name_perm|exact Hm].
    + eapply one_per_perm; [apply name_perm|exact D2].
    + exact D3.
    + rewrite <- (one_per_distinct (one_per_perm (name_perm ms) D2)).
      destruct (Nat.ltb_spec (List.length k0) 3); [left|right]; split; (reflexivity || lia).
Qed.

Lemma find_beacon_some (bs : list (beacon F)) id b : find_beacon bs id = Some b <-> first_beacon bs id b.
Proof.
  unfold find_beacon, first_beacon. split.
  - induction bs as [|c t IH]; cbn [find]; [discriminate|].
    destruct (str_eqb_spec (bk_id c) id) as [E|E].
    + intros H. injection H as <-. exists [], t. repeat split; auto.
    + intros H. destruct (IH H) as (l1 & l2 & -> & H1 & H2). exists (c :: l1), l2. repeat split; auto.
  - intros (l1 & l2 & -> & E & Hl). induction Hl as [|c l Hc Hl IH]; cbn [app find].
    + rewrite E, String.eqb_refl. reflexivity.
    + destruct (str_eqb_spec (bk_id c) id); [contradiction|exact IH].
Qed.
Lemma find_beacon_none (bs : list (beacon F)) id : find_beacon bs id = None <-> ~ on_map bs id.
Proof.
  unfold find_beacon, on_map. split.
  - intros H (b & Hb & E). apply find_none with (x := b) in H; [|exact Hb]. rewrite E, String.eqb_refl in H. discriminate.
  - intros H. destruct (find _ bs) as [b|] eqn:E; [|reflexivity]. apply find_some in E as (Hb & E).
    exfalso. apply H. exists b. split; [exact Hb|]. apply String.eqb_eq. exact E.
Qed.
Lemma known_in bs (ms : list (bmeas F)) m b : In (m, b) (known bs ms) <-> In m ms /\ first_beacon bs (bm_id m) b.
Proof.
  induction ms as [|e t IH]; cbn [known]; [cbn; tauto|].
  destruct (find_beacon bs (bm_id e)) as [c|] eqn:E.
  - pose proof E as E'. apply find_beacon_some in E'. cbn [In]. rewrite IH. split.
    + intros [H|H]; [injection H as <- <-; split; [left; reflexivity|exact E']|]. split; [right|]; apply H.
    + intros [[<-|H] Hb]; [left|right; split; assumption].
      apply find_beacon_some in Hb. rewrite Hb in E. injection E as ->. reflexivity.
  - rewrite IH. cbn [In]. split; [intros [H1 H2]; split; [right|]; assumption|].
    intros [[<-|H] Hb]; [|split; assumption]. apply find_beacon_some in Hb. congruence.
Qed.
Lemma known_fst bs (ms : list (bmeas F)) :
  map fst (known bs ms) = filter (fun m => match find_beacon bs (bm_id m) with Some _ => true | None => false end) ms.
Proof.
  induction ms as [|e t IH]; cbn [known filter]; [reflexivity|].
  destruct (find_beacon bs (bm_id e)); cbn; rewrite IH; reflexivity.
Qed.
Lemma first_on_map (bs : list (beacon F)) id : on_map bs id -> exists b, first_beacon bs id b.
Proof.
  intros H. destruct (find_beacon bs id) as [b|] eqn:E.
  - exists b. apply find_beacon_some. exact E.
  - apply find_beacon_none in E. contradiction.
Qed.
Lemma first_in_map (bs : list (beacon F)) id b : first_beacon bs id b -> In b bs /\ bk_id b = id.
Proof. intros (l1 & l2 & -> & E & _). split; [apply in_or_app; right; left; reflexivity|exact E]. Qed.
Lemma first_unique (bs : list (beacon F)) id b c : first_beacon bs id b -> first_beacon bs id c -> b = c.
Proof. intros H1 H2. apply find_beacon_some in H1, H2. congruence. Qed.

Lemma nodup_map_perm (l l' : list (bmeas F)) : Permutation l l' -> NoDup (ids l) -> NoDup (ids l').
Proof. intros P. apply Permutation_NoDup, Permutation_map. exact P. Qed.
Lemma nodup_map_filter A B (f : A -> B) (p : A -> bool) l : NoDup (map f l) -> NoDup (map f (filter p l)).
Proof.
  induction l as [|a l IH]; cbn; intros H; [constructor|]. inversion H as [|? ? H1 H2]; subst.
  destruct (p a); cbn; [|auto]. constructor; [|auto].
  intros Hi. apply H1. apply in_map_iff in Hi as (b & <- & Hb). apply in_map. apply filter_In in Hb. apply Hb.
Qed.

Lemma known_nil bs (ms : list (bmeas F)) : known bs ms = [] <-> nothing_known bs ms.
Proof.
  unfold nothing_known. split.
  - intros H id Hi Hm. apply in_map_iff in Hi as (m & <- & Hi). apply first_on_map in Hm as (b & Hb).
    assert (H1 : In (m, b) (known bs ms)) by (apply known_in; split; assumption). rewrite H in H1. exact H1.
  - intros H. destruct (known bs ms) as [|[m b] t] eqn:E; [reflexivity|]. exfalso.
    assert (H1 : In (m, b) (known bs ms)) by (rewrite E; left; reflexivity).
    apply known_in in H1 as (H1 & H2). apply first_in_map in H2 as (H2 & H3).
    apply (H (bm_id m)); [apply in_map; exact H1|]. exists b. split; assumption.
Qed.

(** the three ways calculateCoordinates can end *)
Lemma calculate_cases (s s' : trilat F) e : calculate s = Ok (s', e) ->
  tl_map s' = tl_map s /\
  ((e = err_in_trilater /\ negatives (tl_meas s) /\ tl_x s' = tl_x s /\ tl_y s' = tl_y s) \/
   (~ negatives (tl_meas s) /\ e = err_no_solution /\
    ((distinct (tl_meas s) < 3)%nat \/ nothing_known (tl_map s) (tl_meas s)) /\ tl_x s' = tl_x s /\ tl_y s' = tl_y s) \/
   (~ negatives (tl_meas s) /\ e = err_none /\ (3 <= distinct (tl_meas s))%nat /\ ~ nothing_known (tl_map s) (tl_meas s) /\
    exists u, one_per_id (tl_meas s) u /\ Forall (averaged (ssort name_lt (tl_meas s))) u /\
      tl_meas s' = map fst (known (tl_map s) u) /\ known (tl_map s) u <> [] /\
      (tl_x s', tl_y s') = add_weighted (known (tl_map s) u) (tl_x s) (tl_y s))).
Proof.
  unfold calculate. destruct (delete_duplicates (tl_meas s)) as [ms e0] eqn:D.
  apply delete_spec in D as [(-> & H)|(Hn & H1 & H2 & H)].
  - change (negb (err_in_trilater =? 0)%Z) with true. cbv iota. intros E. injection E as <- <-.
    split; [reflexivity|]. left. repeat split; auto.
  - assert (Hn' : ~ negatives (tl_meas s)).
    { intros (m & Hm & Em). rewrite Forall_forall in Hn. specialize (Hn m Hm). unfold negative in Hn. congruence. }
    destruct H as [(-> & H)|(-> & H)].
    + change (negb (err_no_solution =? 0)%Z) with true. cbv iota. intros E. injection E as <- <-.
      split; [reflexivity|]. right; left. repeat split; auto.
    + change (negb (err_none =? 0)%Z) with false. cbv iota. intros E.
      apply bind_ok in E as (u & Hu & E).
      apply sort_res_ok in Hu as (_ & Hp & _).
      assert (Ho : one_per_id (tl_meas s) u).
      { destruct H1 as (A1 & A2 & A3). split; [eapply nodup_map_perm; eassumption|]. split.
        - intros id. rewrite <- (A2 id). unfold ids. split; apply Permutation_in; [symmetry|]; apply Permutation_map; exact Hp.
        - rewrite Forall_forall in *. intros m Hm. apply A3. eapply Permutation_in; [symmetry; exact Hp|exact Hm]. }
      assert (Ha : Forall (averaged (ssort name_lt (tl_meas s))) u).
      { rewrite Forall_forall in *. intros m Hm. apply H2. eapply Permutation_in; [symmetry; exact Hp|exact Hm]. }
      assert (Hk : nothing_known (tl_map s) u <-> nothing_known (tl_map s) (tl_meas s)).
      { unfold nothing_known. destruct Ho as (_ & A2 & _). split; intros Hx id Hi; apply Hx, A2; exact Hi. }
      destruct (known (tl_map s) u) as [|p t] eqn:Ek.
      * injection E as <- <-. split; [reflexivity|]. right; left. repeat split; auto. right. apply Hk, known_nil. exact Ek.
      * destruct (add_weighted (p :: t) (tl_x s) (tl_y s)) as [x y] eqn:Ew. injection E as <- <-.
        split; [reflexivity|]. right; right. repeat split; auto.
        -- rewrite <- Hk, <- known_nil, Ek. discriminate.
        -- exists u. repeat split; auto; try apply Ho; rewrite Ek; [reflexivity|discriminate|].
           cbn [tl_x tl_y]. symmetry. exact Ew.
Qed.
End Gen.

Local Open Scope R_scope.
(** ** Weighted mean over the reals *)
Definition good_pair (mb : bmeas RX * beacon RX) : Prop :=
  (exists d, bm_dist (fst mb) = Some d /\ 0 < d) /\ good_beacon (snd mb).

Lemma fold_pair A (f g : A -> RX) (u v : A -> R) l : forall x y,
  (forall a, In a l -> f a = Some (u a)) -> (forall a, In a l -> g a = Some (v a)) ->
  fold_left (fun xy a => (fst xy +! f a, snd xy +! g a)) l ((Some x : RX), (Some y : RX)) =
  ((Some (x + rsum (map u l)) : RX), (Some (y + rsum (map v l)) : RX)).
Proof.
  induction l as [|a l IH]; intros x y Hf Hg; cbn [fold_left map].
  - rewrite !rsum_nil, !Rplus_0_r. reflexivity.
  - cbn [fst snd]. rewrite (Hf a), (Hg a) by (left; reflexivity). rewrite !rx_add, IH;
      try (intros b Hb; first [apply Hf|apply Hg]; right; exact Hb).
    rewrite !rsum_cons, !Rplus_assoc. reflexivity.
Qed.
Lemma norm_real k : Forall good_pair k ->
  norm_coeff k = (Some (rsum (map (fun dx => 1 / fst dx) (map dx k))) : RX).
Proof.
  intros H. unfold norm_coeff. rewrite map_map. apply fsum_real. intros mb Hmb.
  rewrite Forall_forall in H. destruct (H mb Hmb) as ((d & Ed & Hd) & _).
  unfold dx. cbn [fst]. rewrite Ed. cbn [rval]. rewrite rx_abs, rx_f1, Rabs_right, rx_div by lra. reflexivity.
Qed.
Lemma inv_sum_pos k : k <> [] -> Forall good_pair k -> 0 < rsum (map (fun dx => 1 / fst dx) (map dx k)).
Proof.
  intros Hn H. rewrite map_map. apply rsum_pos.
  - destruct k; [congruence|discriminate].
  - intros w Hw. apply in_map_iff in Hw as (mb & <- & Hmb). rewrite Forall_forall in H.
    destruct (H mb Hmb) as ((d & Ed & Hd) & _). unfold dx. cbn [fst]. rewrite Ed. cbn [rval].
    apply Rdiv_lt_0_compat; lra.
Qed.
Lemma add_weighted_real k x y : k <> [] -> Forall good_pair k ->
  add_weighted k (Some x : RX) (Some y) = (Some (x + inv_weighted (map dx k)), Some (y + inv_weighted (map dy k))).
Proof.
  intros Hn H. unfold add_weighted. rewrite (norm_real H). pose proof (inv_sum_pos Hn H) as Hc.
  set (c := rsum (map (fun dx => 1 / fst dx) (map dx k))) in *.
  assert (Ey : rsum (map (fun dx => 1 / fst dx) (map dy k)) = c).
  { unfold c. rewrite !map_map. reflexivity. }
  rewrite (@fold_pair _ _ _ (fun mb => snd (dx mb) / fst (dx mb) / c) (fun mb => snd (dy mb) / fst (dy mb) / c)).
  - unfold inv_weighted. rewrite Ey. fold c. rewrite !map_map.
    rewrite <- (map_map (fun mb => snd (dx mb) / fst (dx mb)) (fun v => v / c) k), rsum_div.
    rewrite <- (map_map (fun mb => snd (dy mb) / fst (dy mb)) (fun v => v / c) k), rsum_div. reflexivity.
  - intros mb Hmb. rewrite Forall_forall in H. destruct (H mb Hmb) as ((d & Ed & Hd) & (bx & Ex) & (by' & Ey')).
    unfold weight, dx. cbn [fst snd]. rewrite Ed, Ex. cbn [rval]. rewrite rx_mul, rx_abs, rx_f1, rx_f0.
    assert (0 < d * c) by (apply Rmult_lt_0_compat; assumption).
    rewrite Rabs_right by lra. rewrite rx_div by lra. rewrite rx_add, rx_mul. f_equal. field. split; lra.
  - intros mb Hmb. rewrite Forall_forall in H. destruct (H mb Hmb) as ((d & Ed & Hd) & (bx & Ex) & (by' & Ey')).
    unfold weight, dy. cbn [fst snd]. rewrite Ed, Ey'. cbn [rval]. rewrite rx_mul, rx_abs, rx_f1, rx_f0.
    assert (0 < d * c) by (apply Rmult_lt_0_compat; assumption).
    rewrite Rabs_right by lra. rewrite rx_div by lra. rewrite rx_add, rx_mul. f_equal. field. split; lra.
Qed.

Lemma rsum_le A (f g : A -> R) l : (forall a, In a l -> f a <= g a) -> rsum (map f l) <= rsum (map g l).
Proof.
  induction l as [|a l IH]; intros H; cbn [map]; [lra|]. rewrite !rsum_cons.
  assert (H1 := H a (or_introl eq_refl)). assert (H2 := IH (fun b Hb => H b (or_intror Hb))). lra.
Qed.
Lemma inv_weighted_hull l lo hi : l <> [] -> Forall (fun p => 0 < fst p) l -> Forall (fun p => lo <= snd p <= hi) l ->
  lo <= inv_weighted l <= hi.
Proof.
  intros Hn Hd Hx. rewrite Forall_forall in *.
  assert (Hc : 0 < rsum (map (fun dx => 1 / fst dx) l)).
  { apply rsum_pos; [destruct l; [congruence|discriminate]|]. intros w Hw. apply in_map_iff in Hw as (p & <- & Hp).
    apply Rdiv_lt_0_compat; [lra|apply Hd; exact Hp]. }
  unfold inv_weighted. set (c := rsum (map (fun dx => 1 / fst dx) l)) in *.
  assert (H1 : rsum (map (fun p => 1 / fst p * lo) l) <= rsum (map (fun p => snd p / fst p) l) <=
               rsum (map (fun p => 1 / fst p * hi) l)).
  { split; apply rsum_le; intros p Hp; specialize (Hx p Hp); specialize (Hd p Hp); assert (0 < / fst p) by (apply Rinv_0_lt_compat; lra);
      unfold Rdiv; rewrite Rmult_1_l; nra. }
  rewrite <- (map_map (fun p => 1 / fst p) (fun v => v * lo) l), <- (map_map (fun p => 1 / fst p) (fun v => v * hi) l), !rsum_scale in H1.
  fold c in H1. split.
  - apply Rmult_le_reg_r with c; [exact Hc|]. replace (_ / c * c) with (rsum (map (fun p => snd p / fst p) l)) by (field; lra). lra.
  - apply Rmult_le_reg_r with c; [exact Hc|]. replace (_ / c * c) with (rsum (map (fun p => snd p / fst p) l)) by (field; lra). lra.
Qed.
Lemma inv_weighted_perm l l' : Permutation l l' -> inv_weighted l = inv_weighted l'.
Proof.
  intros P. unfold inv_weighted. rewrite (rsum_perm (Permutation_map _ P)).
  rewrite (rsum_perm (Permutation_map (fun dx => 1 / fst dx) P)). reflexivity.
Qed.

Section Calc.
Context {SO : Sorter}.

Lemma good_not_negative m : good_meas m -> negative m = false.
Proof. intros (_ & d & Ed & Hd). unfold negative. rewrite Ed, rx_f0, rx_ltb. apply Rltb_false. lra. Qed.

Lemma dist_swo (ms : list (bmeas RX)) : Forall (fun m => defined (bm_dist m)) ms -> strict_weak_on dist_lt ms.
Proof.
  intros H. rewrite Forall_forall in H. unfold dist_lt. split; [|split].
  - intros a Ha. destruct (H a Ha) as (x & ->). rewrite rx_ltb. apply Rltb_false. lra.
  - intros a b c Ha Hb Hc. destruct (H a Ha) as (x & ->), (H b Hb) as (y & ->), (H c Hc) as (z & ->).
    rewrite !rx_ltb, !Rltb_true. lra.
  - intros a b c Ha Hb Hc. destruct (H a Ha) as (x & ->), (H b Hb) as (y & ->), (H c Hc) as (z & ->).
    rewrite !rx_ltb, !Rltb_false. lra.
Qed.
Lemma one_per_forall (P : RX -> Prop) ms k : one_per_id ms k ->
  Forall (fun m => P (bm_dist m)) ms -> Forall (fun m => P (bm_dist m)) k.
Proof.
  intros (_ & _ & H3) H. rewrite Forall_forall in *. intros m Hm. destruct (H3 m Hm) as (m0 & H4 & _ & <-). apply H, H4.
Qed.
Lemma calculate_defined (s : trilat RX) : Forall (fun m => defined (bm_dist m)) (tl_meas s) -> is_ok (calculate s).
Proof.
  intros H. unfold calculate. destruct (delete_duplicates (tl_meas s)) as [ms e] eqn:D.
  destruct (negb (e =? 0)%Z) eqn:E; [eexists; reflexivity|].
  apply delete_spec in D as [(-> & _)|(_ & H1 & _)]; [discriminate|].
  assert (W : strict_weak_on dist_lt ms) by (apply dist_swo; eapply (@one_per_forall defined); eassumption).
  unfold sort_res. apply swo_b_spec in W. rewrite W. cbn [bind].
  destruct (known _ _); [eexists; reflexivity|]. destruct (add_weighted _ _ _). eexists; reflexivity.
Qed.

Lemma takes_part_known bs ms u : one_per_id ms u -> known bs u <> [] -> takes_part bs ms (known bs u).
Proof.
  intros (H1 & H2 & H3) Hn. split; [exact Hn|]. split; [|split].
  - rewrite known_fst. apply nodup_map_filter. exact H1.
  - intros id. rewrite <- (H2 id), known_fst. unfold ids. split.
    + intros Hi. apply in_map_iff in Hi as (m & <- & Hm). apply filter_In in Hm as (Hm & E).
      split; [apply in_map; exact Hm|]. destruct (find_beacon bs (bm_id m)) as [b|] eqn:Eb; [|discriminate].
      apply find_beacon_some, first_in_map in Eb. exists b. exact Eb.
    + intros (Hi & Hm). apply in_map_iff in Hi as (m & <- & Hi). apply in_map, filter_In. split; [exact Hi|].
      destruct (find_beacon bs (bm_id m)) eqn:Eb; [reflexivity|]. apply find_beacon_none in Eb. contradiction.
  - rewrite Forall_forall in *. intros [m b] Hm. apply known_in in Hm as (Hm & Hb). split; [exact Hb|].
    cbn [fst]. apply H3. exact Hm.
Qed.
Lemma takes_part_good bs ms k : takes_part bs ms k -> Forall good_meas ms -> Forall good_beacon bs -> Forall good_pair k.
Proof.
  intros (_ & _ & _ & H) Hm Hb. rewrite Forall_forall in *. intros [m b] Hk. destruct (H _ Hk) as (H1 & m0 & H2 & _ & H4).
  cbn [fst snd] in *. split; cbn [fst snd].
  - destruct (Hm m0 H2) as (_ & d & Ed & Hd). exists d. split; [congruence|exact Hd].
  - apply first_in_map in H1. apply Hb, H1.
Qed.

(** position computed by one successful call, added to the stored one *)
Lemma calculate_position (s s' : trilat RX) x0 y0 : tl_x s = Some x0 -> tl_y s = Some y0 ->
  Forall good_meas (tl_meas s) -> Forall good_beacon (tl_map s) -> calculate s = Ok (s', err_none) ->
  exists k, takes_part (tl_map s) (tl_meas s) k /\ tl_meas s' = map fst k /\ tl_map s' = tl_map s /\
    tl_x s' = Some (x0 + inv_weighted (map dx k)) /\ tl_y s' = Some (y0 + inv_weighted (map dy k)).
Proof.
  intros Ex Ey Hm Hb H. apply calculate_cases in H as (E & [(H & _)|[(_ & H & _)|(_ & _ & _ & _ & u & H1 & _ & H2 & H3 & H4)]]);
    try discriminate.
  exists (known (tl_map s) u). pose proof (@takes_part_known _ _ _ H1 H3) as T. split; [exact T|]. split; [exact H2|]. split; [exact E|].
  rewrite Ex, Ey, add_weighted_real in H4 by (try exact H3; eapply takes_part_good; eassumption).
  injection H4 as -> ->. split; reflexivity.
Qed.

(** with a single measurement per transmitter, what takes part is determined *)
Lemma takes_part_unique bs ms ms' k k' : NoDup (ids ms) -> 
  (forall id d, (exists m, In m ms /\ bm_id m = id /\ bm_dist m = d) <-> (exists m, In m ms' /\ bm_id m = id /\ bm_dist m = d)) ->
  takes_part bs ms k -> takes_part bs ms' k' -> Permutation (map dx k) (map dx k') /\ Permutation (map dy k) (map dy k').
Proof.
  intros Hn Hs (_ & N1 & M1 & A1) (_ & N2 & M2 & A2).
  set (key := fun mb : bmeas RX * beacon RX => (bm_id (fst mb), bm_dist (fst mb), snd mb)).
  assert (Hids : forall id, In id (ids ms) <-> In id (ids ms')).
  { intros id. unfold ids. split; intros Hi; apply in_map_iff in Hi as (m & E & Hi).
    - destruct (proj1 (Hs id (bm_dist m))) as (m' & H1 & H2 & _); [exists m; repeat split; assumption|].
      rewrite <- H2. apply in_map. exact H1.
    - destruct (proj2 (Hs id (bm_dist m))) as (m' & H1 & H2 & _); [exists m; repeat split; assumption|].
      rewrite <- H2. apply in_map. exact H1. }
  assert (Hdist : forall id m m', In m ms -> In m' ms -> bm_id m = id -> bm_id m' = id -> m = m').
  { clear - Hn. intros id m m' H H' E E'. unfold ids in Hn. induction ms as [|a l IH]; [destruct H|].
    inversion Hn as [|? ? Ha Hl]; subst. destruct H as [<-|H], H' as [<-|H'].
    - reflexivity.
    - exfalso. apply Ha. rewrite <- E'. apply in_map. exact H'.
    - exfalso. apply Ha. rewrite E'. apply in_map. exact H.
    - apply IH; assumption. }
  assert (P : Permutation (map key k) (map key k')).
  { apply NoDup_Permutation.
    - apply NoDup_map_inv with (f := fun x => fst (fst x)). rewrite map_map. unfold ids in N1. rewrite map_map in N1. exact N1.
    - apply NoDup_map_inv with (f := fun x => fst (fst x)). rewrite map_map. unfold ids in N2. rewrite map_map in N2. exact N2.
    - rewrite Forall_forall in A1, A2.
      assert (D : forall K K' L L', 
        (forall id, In id (ids (map fst K)) <-> In id (ids L) /\ on_map bs id) ->
        (forall id, In id (ids (map fst K')) <-> In id (ids L') /\ on_map bs id) ->
        (forall mb, In mb K -> first_beacon bs (bm_id (fst mb)) (snd mb) /\ exists m0, In m0 L /\ bm_id m0 = bm_id (fst mb) /\ bm_dist m0 = bm_dist (fst mb)) ->
        (forall mb, In mb K' -> first_beacon bs (bm_id (fst mb)) (snd mb) /\ exists m0, In m0 L' /\ bm_id m0 = bm_id (fst mb) /\ bm_dist m0 = bm_dist (fst mb)) ->
        (forall id, In id (ids L) <-> In id (ids L')) ->
        (forall id m m', In m L -> In m' L' -> bm_id m = id -> bm_id m' = id -> bm_dist m = bm_dist m') ->
        forall x, In x (map key K) -> In x (map key K')).
      { intros K K' L L' B1 B2 B3 B4 B5 B6 x Hx. apply in_map_iff in Hx as (mb & <- & Hmb).
        assert (I : In (bm_id (fst mb)) (ids (map fst K'))).
        { apply B2. rewrite <- B5. apply B1. unfold ids. rewrite map_map. apply (in_map (fun x => bm_id (fst x))). exact Hmb. }
        unfold ids in I. rewrite map_map in I. apply in_map_iff in I as (mb' & E & Hmb').
        apply in_map_iff. exists mb'. split; [|exact Hmb'].
        destruct (B3 mb Hmb) as (F1 & m0 & G1 & G2 & G3), (B4 mb' Hmb') as (F2 & m1 & G1' & G2' & G3').
        unfold key. rewrite <- G3, <- G3'. rewrite E in F2. rewrite (first_unique F1 F2). rewrite E. f_equal. f_equal.
        symmetry. apply (B6 (bm_id (fst mb))); congruence. }
      assert (Cross : forall id m m', In m ms -> In m' ms' -> bm_id m = id -> bm_id m' = id -> bm_dist m = bm_dist m').
      { intros id m m' H H' E E'. destruct (proj2 (Hs id (bm_dist m'))) as (m2 & Q1 & Q2 & Q3); [exists m'; repeat split; assumption|].
        rewrite <- Q3. f_equal. apply (Hdist id); assumption. }
      intros x. split.
      + apply (D k k' ms ms'); assumption.
      + apply (D k' k ms' ms); try assumption; [intros id; symmetry; apply Hids|].
        intros id m m' H H' E E'. symmetry. apply (Cross id); assumption. }
  split.
  - replace (map dx k) with (map (fun q => (rval (snd (fst q)), rval (bk_x (snd q)))) (map key k)) by (rewrite map_map; reflexivity).
    replace (map dx k') with (map (fun q => (rval (snd (fst q)), rval (bk_x (snd q)))) (map key k')) by (rewrite map_map; reflexivity).
    apply Permutation_map. exact P.
  - replace (map dy k) with (map (fun q => (rval (snd (fst q)), rval (bk_y (snd q)))) (map key k)) by (rewrite map_map; reflexivity).
    replace (map dy k') with (map (fun q => (rval (snd (fst q)), rval (bk_y (snd q)))) (map key k')) by (rewrite map_map; reflexivity).
    apply Permutation_map. exact P.
Qed.

(** a call adds what a fresh object would report *)
Lemma calculate_add bs ms x0 y0 s e : Forall good_meas ms -> Forall good_beacon bs ->
  calculate (mkTl bs ms f0 f0) = Ok (s, e) ->
  exists x y, tl_x s = Some x /\ tl_y s = Some y /\
    calculate (mkTl bs ms (Some x0 : RX) (Some y0)) = Ok (mkTl bs (tl_meas s) (Some (x0 + x)) (Some (y0 + y)), e).
Proof.
  intros Hm Hb. unfold calculate. cbn [tl_meas tl_map tl_x tl_y].
  destruct (delete_duplicates ms) as [k e0] eqn:D. destruct (negb (e0 =? 0)%Z).
  - intros H. injection H as <- <-. exists 0, 0. rewrite !Rplus_0_r. repeat split; reflexivity.
  - intros H. apply bind_ok in H as (u & Eu & H). rewrite Eu. cbn [bind].
    destruct (known bs u) as [|p t] eqn:Ek.
    + injection H as <- <-. exists 0, 0. rewrite !Rplus_0_r. repeat split; reflexivity.
    + assert (G : Forall good_pair (p :: t)).
      { rewrite <- Ek. apply Forall_forall. intros [m b] Hmb. apply known_in in Hmb as (H1 & H2).
        apply sort_res_ok in Eu as (_ & Pu & _).
        apply delete_spec in D as [(_ & m0 & H3 & H4)|(_ & (_ & _ & H3) & _)].
        - rewrite Forall_forall in Hm. rewrite (good_not_negative (Hm m0 H3)) in H4. discriminate.
        - rewrite Forall_forall in *. destruct (H3 m) as (m0 & H4 & _ & H5); [eapply Permutation_in; [symmetry; exact Pu|exact H1]|].
          split; cbn [fst snd].
          + destruct (Hm m0 H4) as (_ & d & Ed & Hd). exists d. split; [congruence|exact Hd].
          + apply first_in_map in H2. apply Hb, H2. }
      rewrite rx_f0, add_weighted_real in H by (exact G || discriminate). injection H as <- <-.
      rewrite add_weighted_real by (exact G || discriminate). cbn [tl_x tl_y tl_meas].
      eexists _, _. split; [reflexivity|]. split; [reflexivity|]. rewrite !Rplus_0_l. reflexivity.
Qed.

Lemma session_sum bs mss : Forall good_beacon bs -> Forall (Forall good_meas) mss -> forall ms0 x0 y0,
  exists s xs, session (mkTl bs ms0 (Some x0) (Some y0)) mss = Ok s /\
    Forall2 (fun ms xy => fresh_report bs ms (fst xy) (snd xy)) mss xs /\
    tl_x s = Some (x0 + rsum (map fst xs)) /\ tl_y s = Some (y0 + rsum (map snd xs)).
Proof.
  intros Hb Hm. induction Hm as [|ms t H1 H2 IH]; intros ms0 x0 y0.
  - eexists _, []. split; [reflexivity|]. split; [constructor|]. cbn [map tl_x tl_y]. rewrite rsum_nil, !Rplus_0_r. split; reflexivity.
  - assert (O : is_ok (calculate (mkTl bs ms f0 f0))).
    { apply calculate_defined. eapply Forall_impl; [|exact H1]. intros m (_ & d & E & _). exists d. exact E. }
    destruct O as ((s1 & e1) & E1). destruct (calculate_add x0 y0 H1 Hb E1) as (x & y & Ex & Ey & E2).
    destruct (IH (tl_meas s1) (x0 + x) (y0 + y)) as (s & xs & E3 & F2 & Gx & Gy).
    exists s, ((x, y) :: xs). cbn [session tl_update tl_map tl_x tl_y]. unfold tl_update. cbn [tl_map tl_x tl_y].
    rewrite E2. cbn [bind]. split; [exact E3|]. split.
    + constructor; [|exact F2]. exists s1, e1. repeat split; assumption.
    + cbn [map fst snd]. rewrite !rsum_cons, <- !Rplus_assoc. split; assumption.
Qed.
End Calc.

(** ** Least squares *)
Section Ols.
(** squared residual of the linearised equations at a point *)
Definition residual (rows : list (R * R * R)) (x y : R) : R :=
  rsum (map (fun r => (fst (fst r) * x + snd (fst r) * y - snd r) ^ 2) rows).
Definition embed_row (r : R * R * R) : RX * RX * RX := (Some (fst (fst r)), Some (snd (fst r)), Some (snd r)).
Definition ra (r : R * R * R) := fst (fst r).
Definition rb (r : R * R * R) := snd (fst r).
Definition saa l := rsum (map (fun r => ra r * ra r) l).
Definition sab l := rsum (map (fun r => ra r * rb r) l).
Definition sbb l := rsum (map (fun r => rb r * rb r) l).
Definition sac l := rsum (map (fun r => ra r * snd r) l).
Definition sbc l := rsum (map (fun r => rb r * snd r) l).
Definition scc (l : list (R * R * R)) := rsum (map (fun r => snd r * snd r) l).
Definition gram l := saa l * sbb l - sab l * sab l.

Lemma residual_expand l x y :
  residual l x y = saa l * x ^ 2 + 2 * sab l * x * y + sbb l * y ^ 2 - 2 * sac l * x - 2 * sbc l * y + scc l.
Proof.
  unfold residual, saa, sab, sbb, sac, sbc, scc, ra, rb. induction l as [|r l IH]; cbn [map]; [rewrite !rsum_nil; ring|].
  rewrite !rsum_cons, IH. ring.
Qed.
Lemma quad_expand l x y :
  rsum (map (fun r => (ra r * x + rb r * y) ^ 2) l) = saa l * x ^ 2 + 2 * sab l * x * y + sbb l * y ^ 2.
Proof.
  unfold saa, sab, sbb. induction l as [|r l IH]; cbn [map]; [rewrite !rsum_nil; ring|]. rewrite !rsum_cons, IH. ring.
Qed.
Lemma gram_cons r l : gram (r :: l) = gram l + rsum (map (fun q => (ra r * rb q - ra q * rb r) ^ 2) l).
Proof.
  assert (E : rsum (map (fun q => (ra r * rb q - ra q * rb r) ^ 2) l) =
    ra r * ra r * sbb l - 2 * (ra r * rb r) * sab l + rb r * rb r * saa l).
  { unfold saa, sab, sbb. induction l as [|q l IH]; cbn [map]; [rewrite !rsum_nil; ring|]. rewrite !rsum_cons, IH. ring. }
  rewrite E. unfold gram, saa, sab, sbb. cbn [map]. rewrite !rsum_cons. ring.
Qed.
Lemma rsum_sq_nonneg A (f : A -> R) l : 0 <= rsum (map (fun a => f a ^ 2) l).
Proof. apply rsum_nonneg. intros v Hv. apply in_map_iff in Hv as (a & <- & _). apply pow2_ge_0. Qed.
Lemma rsum_sq_zero A (f : A -> R) l a : In a l -> rsum (map (fun a => f a ^ 2) l) = 0 -> f a = 0.
Proof.
  induction l as [|b l IH]; cbn [map]; [intros []|]. rewrite rsum_cons. intros Hi H.
  pose proof (rsum_sq_nonneg f l). pose proof (pow2_ge_0 (f b)). destruct Hi as [->|Hi]; [nra|apply IH; [exact Hi|lra]].
Qed.
Lemma gram_nonneg l : 0 <= gram l.
Proof.
  induction l as [|r l IH]; [unfold gram, saa, sab, sbb; cbn [map]; rewrite !rsum_nil; lra|].
  rewrite gram_cons. pose proof (rsum_sq_nonneg (fun q => ra r * rb q - ra q * rb r) l). lra.
Qed.
(** the Gram determinant vanishes exactly when all rows are parallel *)
Lemma gram_zero l : gram l = 0 <-> (forall r q, In r l -> In q l -> ra r * rb q = ra q * rb r).
Proof.
  induction l as [|r l IH]; [split; [intros _ ? ? []|]; intros _; unfold gram, saa, sab, sbb; cbn [map]; rewrite !rsum_nil; ring|].
  rewrite gram_cons. pose proof (gram_nonneg l) as G. pose proof (rsum_sq_nonneg (fun q => ra r * rb q - ra q * rb r) l) as Q.
  split.
  - intros H. assert (H1 : gram l = 0) by lra. assert (H2 : rsum (map (fun q => (ra r * rb q - ra q * rb r) ^ 2) l) = 0) by lra.
    assert (P : forall q, In q l -> ra r * rb q - ra q * rb r = 0).
    { intros q Hq. apply (rsum_sq_zero (fun q => ra r * rb q - ra q * rb r) l); assumption. }
    intros p q [<-|Hp] [<-|Hq]; [ring| | |].
    + specialize (P q Hq). lra.
    + specialize (P p Hp). lra.
    + apply IH; assumption.
  - intros H. assert (H1 : gram l = 0) by (apply IH; intros p q Hp Hq; apply H; right; assumption).
    rewrite H1, Rplus_0_l. clear - H.
    assert (P : forall q, In q l -> (ra r * rb q - ra q * rb r) ^ 2 = 0).
    { intros q Hq. rewrite (H r q) by (left + right; auto; reflexivity). ring. }
    clear H. induction l as [|q l IH]; cbn [map]; [apply rsum_nil|]. rewrite rsum_cons, (P q) by (left; reflexivity).
    rewrite IH by (intros p Hp; apply P; right; exact Hp). ring.
Qed.

Definition sol_x l := (sbb l * sac l - sab l * sbc l) / gram l.
Definition sol_y l := (saa l * sbc l - sab l * sac l) / gram l.
Lemma fsum_map A B (f : B -> RX) (g : A -> B) l : fsum f (map g l) = fsum (fun a => f (g a)) l.
Proof.
  unfold fsum. generalize (f0 : RX). induction l as [|a l IH]; intros z; cbn [map fold_left]; [reflexivity|apply IH].
Qed.
Lemma rsum_lin A (f g h : A -> R) (c d : R) l : (forall a, In a l -> f a = c * g a + d * h a) ->
  rsum (map f l) = c * rsum (map g l) + d * rsum (map h l).
Proof.
  induction l as [|a l IH]; intros H; cbn [map]; [rewrite !rsum_nil; ring|].
  rewrite !rsum_cons, (H a) by (left; reflexivity). rewrite IH by (intros b Hb; apply H; right; exact Hb). ring.
Qed.
Lemma ols_real l : l <> [] -> gram l <> 0 -> ols (map embed_row l) = Ok (Some (sol_x l) : RX, Some (sol_y l) : RX).
Proof.
  intros Hn Hg. unfold ols. destruct (map embed_row l) as [|e0 es] eqn:El; [destruct l; [congruence|discriminate]|].
  rewrite <- El. clear El e0 es. rewrite !fsum_map.
  rewrite (@fsum_real _ (fun a => fst (fst (embed_row a)) *! fst (fst (embed_row a))) (fun r => ra r * ra r)) by (intros; apply rx_mul).
  rewrite (@fsum_real _ (fun a => fst (fst (embed_row a)) *! snd (fst (embed_row a))) (fun r => ra r * rb r)) by (intros; apply rx_mul).
  rewrite (@fsum_real _ (fun a => snd (fst (embed_row a)) *! fst (fst (embed_row a))) (fun r => ra r * rb r))
    by (intros; etransitivity; [apply rx_mul|]; f_equal; apply Rmult_comm).
  rewrite (@fsum_real _ (fun a => snd (fst (embed_row a)) *! snd (fst (embed_row a))) (fun r => rb r * rb r)) by (intros; apply rx_mul).
  fold (saa l) (sab l) (sbb l). rewrite !rx_mul, !rx_sub, !rx_opp. fold (gram l). rewrite !rx_div by exact Hg.
  f_equal. f_equal.
  - rewrite (@fsum_real _ _ (fun r => (sbb l / gram l * ra r + - sab l / gram l * rb r) * snd r)).
    + f_equal. rewrite (@rsum_lin _ _ (fun r => ra r * snd r) (fun r => rb r * snd r) (sbb l / gram l) (- sab l / gram l)) by (intros; ring).
      fold (sac l) (sbc l). unfold sol_x. field. exact Hg.
    + intros r _. cbn [embed_row fst snd]. rewrite rx_f0, !rx_mul, !rx_add, rx_mul. f_equal. unfold ra, rb. ring.
  - rewrite (@fsum_real _ _ (fun r => (- sab l / gram l * ra r + saa l / gram l * rb r) * snd r)).
    + f_equal. rewrite (@rsum_lin _ _ (fun r => ra r * snd r) (fun r => rb r * snd r) (- sab l / gram l) (saa l / gram l)) by (intros; ring).
      fold (sac l) (sbc l). unfold sol_y. field. exact Hg.
    + intros r _. cbn [embed_row fst snd]. rewrite rx_f0, !rx_mul, !rx_add, rx_mul. f_equal. unfold ra, rb. ring.
Qed.
Lemma ols_singular l : l <> [] -> gram l = 0 -> ols (map embed_row l) = Ok (None : RX, None : RX).
Proof.
  intros Hn Hg. unfold ols. destruct (map embed_row l) as [|e0 es] eqn:El; [destruct l; [congruence|discriminate]|].
  rewrite <- El. clear El e0 es. rewrite !fsum_map.
  rewrite (@fsum_real _ (fun a => fst (fst (embed_row a)) *! fst (fst (embed_row a))) (fun r => ra r * ra r)) by (intros; apply rx_mul).
  rewrite (@fsum_real _ (fun a => fst (fst (embed_row a)) *! snd (fst (embed_row a))) (fun r => ra r * rb r)) by (intros; apply rx_mul).
  rewrite (@fsum_real _ (fun a => snd (fst (embed_row a)) *! fst (fst (embed_row a))) (fun r => ra r * rb r))
    by (intros; etransitivity; [apply rx_mul|]; f_equal; apply Rmult_comm).
  rewrite (@fsum_real _ (fun a => snd (fst (embed_row a)) *! snd (fst (embed_row a))) (fun r => rb r * rb r)) by (intros; apply rx_mul).
  fold (saa l) (sab l) (sbb l). rewrite !rx_mul, !rx_sub, !rx_opp. fold (gram l). rewrite Hg.
  assert (D : forall v, fdiv (Some v : RX) (Some 0) = None).
  { intros v. cbn. replace (Reqb 0 0) with true by (symmetry; apply Reqb_true; reflexivity). reflexivity. }
  rewrite !D. destruct l as [|r l]; [congruence|].
  assert (Nn : forall (g : R * R * R -> RX), (forall r, g r = None) -> fsum g (r :: l) = None).
  { intros g Hg'. unfold fsum. cbn [fold_left]. rewrite Hg'.
    assert (Z : forall l', fold_left (fun s x => s +! g x) l' (None : RX) = None).
    { induction l' as [|q l' IH]; [reflexivity|]. exact IH. }
    exact (Z l). }
  rewrite !Nn by (intros q; reflexivity). reflexivity.
Qed.
Lemma sol_min l x y : gram l <> 0 ->
  residual l x y = residual l (sol_x l) (sol_y l) + rsum (map (fun r => (ra r * (x - sol_x l) + rb r * (y - sol_y l)) ^ 2) l).
Proof.
  intros Hg. rewrite quad_expand, !residual_expand.
  assert (E1 : saa l * sol_x l + sab l * sol_y l = sac l) by (unfold sol_x, sol_y; unfold gram in *; field; exact Hg).
  assert (E2 : sab l * sol_x l + sbb l * sol_y l = sbc l) by (unfold sol_x, sol_y; unfold gram in *; field; exact Hg).
  rewrite <- E1, <- E2. ring.
Qed.
Lemma sol_strict l x y : gram l <> 0 -> rsum (map (fun r => (ra r * x + rb r * y) ^ 2) l) = 0 -> x = 0 /\ y = 0.
Proof.
  intros Hg H. pose proof H as H'. rewrite quad_expand in H'.
  assert (K : forall r, In r l -> ra r * x + rb r * y = 0).
  { intros r Hr. apply (rsum_sq_zero (fun r => ra r * x + rb r * y) l); assumption. }
  assert (A : saa l * x + sab l * y = 0 /\ sab l * x + sbb l * y = 0).
  { clear Hg H H'. unfold saa, sab, sbb. induction l as [|r l IH]; cbn [map]; [rewrite !rsum_nil; lra|].
    rewrite !rsum_cons. destruct IH as [I1 I2]; [intros q Hq; apply K; right; exact Hq|]. specialize (K r (or_introl eq_refl)).
    split.
    - replace (_ * x + _ * y) with (ra r * (ra r * x + rb r * y) + (rsum (map (fun r => ra r * ra r) l) * x + rsum (map (fun r => ra r * rb r) l) * y)) by ring.
      rewrite K, I1. ring.
    - replace (_ * x + _ * y) with (rb r * (ra r * x + rb r * y) + (rsum (map (fun r => ra r * rb r) l) * x + rsum (map (fun r => rb r * rb r) l) * y)) by ring.
      rewrite K, I2. ring. }
  destruct A as [A1 A2]. unfold gram in Hg. split; apply Rmult_eq_reg_l with (saa l * sbb l - sab l * sab l); try exact Hg.
  - replace (_ * x) with (sbb l * (saa l * x + sab l * y) - sab l * (sab l * x + sbb l * y)) by ring. rewrite A1, A2. ring.
  - replace (_ * y) with (saa l * (sab l * x + sbb l * y) - sab l * (saa l * x + sab l * y)) by ring. rewrite A1, A2. ring.
Qed.
Lemma sol_exact l x y : gram l <> 0 -> residual l x y = 0 -> x = sol_x l /\ y = sol_y l.
Proof.
  intros Hg H. rewrite (sol_min _ _ Hg) in H.
  assert (N : 0 <= residual l (sol_x l) (sol_y l)) by (apply (rsum_sq_nonneg (fun r => fst (fst r) * sol_x l + snd (fst r) * sol_y l - snd r))).
  pose proof (rsum_sq_nonneg (fun r => ra r * (x - sol_x l) + rb r * (y - sol_y l)) l) as Q.
  destruct (@sol_strict l (x - sol_x l) (y - sol_y l) Hg) as [E1 E2]; lra.
Qed.

Definition real_row (p mb : bmeas RX * beacon RX) : R * R * R :=
  (2 * (kx mb - kx p), 2 * (ky mb - ky p), kd p * kd p - kd mb * kd mb - (kx p * kx p + ky p * ky p) + (kx mb * kx mb + ky mb * ky mb)).
Lemma system_real p t : Forall real_pair (p :: t) -> linear_system (p :: t) = Ok (map embed_row (map (real_row p) t)).
Proof.
  intros H. inversion H as [|? ? Hp Ht]; subst. destruct p as [m1 b1]. destruct Hp as (Hd & Hx & Hy). cbn [fst snd] in *.
  unfold linear_system. f_equal. rewrite map_map. apply map_ext_in. intros [m b] Hmb. rewrite Forall_forall in Ht.
  destruct (Ht _ Hmb) as (Hd' & Hx' & Hy'). cbn [fst snd] in *. unfold embed_row, real_row, kx, ky, kd. cbn [fst snd].
  destruct Hd as (d & ->), Hx as (x & ->), Hy as (y & ->), Hd' as (d' & ->), Hx' as (x' & ->), Hy' as (y' & ->).
  cbn [rval]. rewrite !rx_ofZ, !rx_mul, !rx_sub, !rx_mul, !rx_add, !rx_sub, !rx_add. reflexivity.
Qed.
Lemma gram_collinear p t : gram (map (real_row p) t) <> 0 <-> not_collinear (p :: t).
Proof.
  split.
  - intros H. apply Classical_Prop.NNPP. intros N. apply H, gram_zero. intros r q Hr Hq.
    apply in_map_iff in Hr as (b & <- & Hb). apply in_map_iff in Hq as (c & <- & Hc).
    unfold real_row, ra, rb. cbn [fst snd]. apply Classical_Prop.NNPP. intros X. apply N.
    exists p, b, c. repeat split; [left; reflexivity|right; exact Hb|right; exact Hc|]. lra.
  - intros (a & b & c & Ha & Hb & Hc & D) H. rewrite gram_zero in H.
    assert (P : forall u v, In u (p :: t) -> In v (p :: t) -> (kx u - kx p) * (ky v - ky p) = (kx v - kx p) * (ky u - ky p)).
    { intros u v [<-|Hu] [<-|Hv]; try ring.
      specialize (H (real_row p u) (real_row p v)). unfold real_row, ra, rb in H. cbn [fst snd] in H.
      rewrite !in_map_iff in H. specialize (H (ex_intro _ u (conj eq_refl Hu)) (ex_intro _ v (conj eq_refl Hv))). lra. }
    apply D. pose proof (P a b Ha Hb) as P1. pose proof (P b c Hb Hc) as P2. pose proof (P a c Ha Hc) as P3. lra.
Qed.
Lemma rows_exact x y p t : Forall (exact_from x y) (p :: t) -> residual (map (real_row p) t) x y = 0.
Proof.
  intros H. inversion H as [|? ? Hp Ht]; subst. unfold residual. rewrite map_map.
  assert (Z : forall mb, In mb t -> (fst (fst (real_row p mb)) * x + snd (fst (real_row p mb)) * y - snd (real_row p mb)) ^ 2 = 0).
  { intros mb Hmb. rewrite Forall_forall in Ht. specialize (Ht mb Hmb). unfold exact_from, dist2 in *. unfold real_row. cbn [fst snd].
    replace (_ - _) with 0; [ring|]. replace (kd p * kd p) with (kd p ^ 2) by ring. replace (kd mb * kd mb) with (kd mb ^ 2) by ring. rewrite Hp, Ht. ring. }
  clear H Hp Ht. induction t as [|mb t IH]; cbn [map]; [apply rsum_nil|]. rewrite rsum_cons, Z by (left; reflexivity).
  rewrite IH by (intros q Hq; apply Z; right; exact Hq). ring.
Qed.
Lemma not_collinear_two p : ~ not_collinear [p].
Proof. intros (a & b & c & [<-|[]] & [<-|[]] & [<-|[]] & D). apply D. ring. Qed.
Lemma least_squares_exact k x y : Forall real_pair k -> Forall (exact_from x y) k -> not_collinear k ->
  least_squares k = Ok ((Some x : RX), (Some y : RX)).
Proof.
  intros Hr He Hc. unfold least_squares. destruct k as [|p t]; [destruct Hc as (? & _ & _ & [] & _)|].
  rewrite (system_real Hr). cbn [bind]. pose proof Hc as Hg. apply gram_collinear in Hg.
  rewrite ols_real; [|destruct t; [exfalso; exact (not_collinear_two Hc)|discriminate]|exact Hg].
  destruct (@sol_exact _ x y Hg (rows_exact He)) as [<- <-]. reflexivity.
Qed.
Lemma mismatch_residual p t x y : mismatch p t x y = residual (map (real_row p) t) x y.
Proof.
  unfold mismatch, residual. rewrite map_map. f_equal. apply map_ext. intros mb. unfold real_row, dist2. cbn [fst snd]. ring.
Qed.
Lemma least_squares_min p t : Forall real_pair (p :: t) -> not_collinear (p :: t) ->
  exists x y, least_squares (p :: t) = Ok ((Some x : RX), (Some y : RX)) /\
    forall x' y', (x', y') <> (x, y) -> mismatch p t x y < mismatch p t x' y'.
Proof.
  intros Hr Hc. unfold least_squares. rewrite (system_real Hr). cbn [bind]. pose proof Hc as Hg. apply gram_collinear in Hg.
  rewrite ols_real; [|destruct t; [exfalso; exact (not_collinear_two Hc)|discriminate]|exact Hg].
  eexists _, _. split; [reflexivity|]. rewrite !mismatch_residual. set (l := map (real_row p) t) in *. intros x' y' N. rewrite mismatch_residual. fold l.
  pose proof (sol_min x' y' Hg) as M. pose proof (rsum_sq_nonneg (fun r => ra r * (x' - sol_x l) + rb r * (y' - sol_y l)) l) as Q.
  destruct (Rle_lt_or_eq_dec _ _ Q) as [Q'|Q']; [lra|]. exfalso. apply N.
  destruct (@sol_strict l (x' - sol_x l) (y' - sol_y l) Hg) as [E1 E2]; [symmetry; exact Q'|]. f_equal; lra.
Qed.
Lemma least_squares_singular p q t : Forall real_pair (p :: q :: t) -> ~ not_collinear (p :: q :: t) ->
  least_squares (p :: q :: t) = Ok ((None : RX), (None : RX)).
Proof.
  intros Hr Hc. unfold least_squares. rewrite (system_real Hr). cbn [bind]. apply ols_singular; [discriminate|].
  apply Classical_Prop.NNPP. intros H. apply Hc, gram_collinear. exact H.
Qed.
End Ols.

Section Top.
Context {F : Type} {NF : Num F} {SO : Sorter}.
Lemma codes (s s' : trilat F) e : calculate s = Ok (s', e) ->
  (e = err_in_trilater <-> negatives (tl_meas s)) /\
  (e = err_no_solution <-> ~ negatives (tl_meas s) /\ ((distinct (tl_meas s) < 3)%nat \/ nothing_known (tl_map s) (tl_meas s))) /\
  (e = err_none <-> ~ negatives (tl_meas s) /\ (3 <= distinct (tl_meas s))%nat /\ ~ nothing_known (tl_map s) (tl_meas s)) /\
  (e <> err_none -> tl_x s' = tl_x s /\ tl_y s' = tl_y s).
Proof.
  intros H. apply calculate_cases in H as (_ & [(-> & H & Hx)|[(H & -> & Hc & Hx)|(H & -> & H1 & H2 & _)]]).
  - repeat split; try discriminate; try tauto; intros (K & _); contradiction.
  - repeat split; try discriminate; try tauto. intros (_ & K1 & K2). destruct Hc as [Hc|Hc]; [lia|contradiction].
  - repeat split; try discriminate; try tauto.
    intros (_ & [K|K]); [lia|contradiction].
Qed.
Lemma kept (s s' : trilat F) : calculate s = Ok (s', err_none) ->
  tl_map s' = tl_map s /\ NoDup (ids (tl_meas s')) /\
  (forall id, In id (ids (tl_meas s')) <-> In id (ids (tl_meas s)) /\ on_map (tl_map s) id) /\
  forall m, In m (tl_meas s') ->
    (exists m0, In m0 (tl_meas s) /\ bm_id m0 = bm_id m /\ bm_dist m0 = bm_dist m) /\
    exists l, Permutation (from_id (bm_id m) (tl_meas s)) l /\
      bm_rssi m = fsum (@bm_rssi F) l /! fofZ (Z.of_nat (List.length l)).
Proof.
  intros H. apply calculate_cases in H as (E & [(H & _)|[(_ & H & _)|(_ & _ & _ & _ & u & (U1 & U2 & U3) & Ha & H2 & _)]]); try discriminate.
  split; [exact E|]. rewrite H2. split; [|split].
  - rewrite known_fst. apply nodup_map_filter. exact U1.
  - intros id. rewrite <- (U2 id), known_fst. unfold ids. split.
    + intros Hi. apply in_map_iff in Hi as (m & <- & Hm). apply filter_In in Hm as (Hm & E').
      split; [apply in_map; exact Hm|]. destruct (find_beacon (tl_map s) (bm_id m)) as [b|] eqn:Eb; [|discriminate].
      apply find_beacon_some, first_in_map in Eb. exists b. exact Eb.
    + intros (Hi & Hm). apply in_map_iff in Hi as (m & <- & Hi). apply in_map, filter_In. split; [exact Hi|].
      destruct (find_beacon (tl_map s) (bm_id m)) eqn:Eb; [reflexivity|]. apply find_beacon_none in Eb. contradiction.
  - rewrite known_fst. intros m Hm. apply filter_In in Hm as (Hm & _). rewrite Forall_forall in *. split; [apply U3; exact Hm|].
    exists (from_id (bm_id m) (ssort name_lt (tl_meas s))). split; [|apply Ha; exact Hm].
    unfold from_id. clear. generalize (name_perm (tl_meas s)). generalize (ssort name_lt (tl_meas s)). intros l P.
    induction P; cbn [filter]; auto.
    + destruct (String.eqb _ _); auto.
    + destruct (String.eqb (bm_id y) _), (String.eqb (bm_id x) _); auto. apply perm_swap.
    + etransitivity; eassumption.
Qed.
End Top.
Lemma kept_mean (SO : Sorter) (s s' : trilat RX) m : Forall (fun m => defined (bm_rssi m)) (tl_meas s) ->
  calculate s = Ok (s', err_none) -> In m (tl_meas s') ->
  bm_rssi m = Some (mean (map (fun m0 => rval (bm_rssi m0)) (from_id (bm_id m) (tl_meas s)))).
Proof.
  intros Hd H Hm. destruct (kept _ H) as (_ & _ & _ & K). destruct (K m Hm) as ((m0 & H1 & H2 & _) & l & P & ->).
  rewrite fsum_rval.
  - rewrite rx_ofZ, <- INR_IZR_INZ, <- (Permutation_length P). rewrite (rsum_perm (Permutation_map _ (Permutation_sym P))).
    unfold mean. rewrite map_length. rewrite rx_div; [reflexivity|]. apply not_0_INR.
    assert (I : In m0 (from_id (bm_id m) (tl_meas s))) by (apply filter_In; split; [exact H1|rewrite H2; apply String.eqb_refl]).
    destruct (from_id (bm_id m) (tl_meas s)); [destruct I|discriminate].
  - intros a Ha. rewrite Forall_forall in Hd. apply Hd. apply (Permutation_in _ (Permutation_sym P)) in Ha.
    apply filter_In in Ha. apply Ha.
Qed.
Lemma fresh_hull (SO : Sorter) (s s' : trilat RX) lo hi : tl_x s = f0 -> tl_y s = f0 ->
  Forall good_meas (tl_meas s) -> Forall good_beacon (tl_map s) -> calculate s = Ok (s', err_none) ->
  exists x y, tl_x s' = Some x /\ tl_y s' = Some y /\
   ((forall b, In b (tl_map s) -> In (bk_id b) (ids (tl_meas s)) -> lo <= rval (bk_x b) <= hi) -> lo <= x <= hi) /\
   ((forall b, In b (tl_map s) -> In (bk_id b) (ids (tl_meas s)) -> lo <= rval (bk_y b) <= hi) -> lo <= y <= hi).
Proof.
  intros Ex Ey Hm Hb H. rewrite rx_f0 in Ex, Ey. destruct (@calculate_position SO s s' 0 0 Ex Ey Hm Hb H) as (k & T & _ & _ & -> & ->).
  eexists _, _. split; [reflexivity|]. split; [reflexivity|]. rewrite !Rplus_0_l.
  pose proof (takes_part_good T Hm Hb) as G. destruct T as (T1 & T2 & T3 & T4).
  assert (Kn : map dx k <> [] /\ map dy k <> []) by (split; destruct k; [congruence|discriminate|congruence|discriminate]).
  assert (Kd : Forall (fun p => 0 < fst p) (map dx k) /\ Forall (fun p => 0 < fst p) (map dy k)).
  { rewrite !Forall_map. split; (eapply Forall_impl; [|exact G]); intros mb ((d & Ed & Hd) & _); cbn [dx dy fst]; unfold dx, dy; cbn [fst]; rewrite Ed; exact Hd. }
  assert (Ki : forall mb, In mb k -> In (snd mb) (tl_map s) /\ In (bk_id (snd mb)) (ids (tl_meas s))).
  { intros mb Hmb. rewrite Forall_forall in T4. destruct (T4 mb Hmb) as (F1 & _). apply first_in_map in F1 as (F1 & F2).
    split; [exact F1|]. rewrite F2. apply T3. unfold ids. rewrite map_map. apply (in_map (fun q => bm_id (fst q))). exact Hmb. }
  split; intros Hh; apply inv_weighted_hull; try apply Kn; try apply Kd; rewrite Forall_map; apply Forall_forall; intros mb Hmb;
    unfold dx, dy; cbn [snd]; apply Hh; apply Ki; exact Hmb.
Qed.
Lemma same_reading (SO : Sorter) bs ms ms' x0 y0 s s' : Forall good_beacon bs -> Forall good_meas ms -> Forall good_meas ms' ->
  NoDup (ids ms) ->
  (forall id d, (exists m, In m ms /\ bm_id m = id /\ bm_dist m = d) <-> (exists m, In m ms' /\ bm_id m = id /\ bm_dist m = d)) ->
  calculate (mkTl bs ms (Some x0 : RX) (Some y0)) = Ok (s, err_none) ->
  calculate (mkTl bs ms' (Some x0 : RX) (Some y0)) = Ok (s', err_none) -> tl_x s = tl_x s' /\ tl_y s = tl_y s'.
Proof.
  intros Hb Hm Hm' Hn Hs H H'.
  destruct (@calculate_position SO (mkTl bs ms (Some x0) (Some y0)) s x0 y0 eq_refl eq_refl Hm Hb H) as (k & T & _ & _ & -> & ->).
  destruct (@calculate_position SO (mkTl bs ms' (Some x0) (Some y0)) s' x0 y0 eq_refl eq_refl Hm' Hb H') as (k' & T' & _ & _ & -> & ->).
  destruct (takes_part_unique Hn Hs T T') as (P1 & P2). rewrite (inv_weighted_perm P1), (inv_weighted_perm P2). split; reflexivity.
Qed.
