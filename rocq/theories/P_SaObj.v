(** C113: what the stand-alone trilateration keeps. *)
From Coq Require Import Reals Lra Lia Permutation Sorted.
From Verif Require Import Lib NumOrd NumReal NumFloat LibR SortInst SaTrilat Spec_SaTrilat Spec_SaObj Pf_SaTrilat Ex.
Local Open Scope string_scope.
Local Open Scope list_scope.

Section Gen.
Context {F : Type} {NF : Num F} {SO : Sorter}.

Lemma absorb_err_keep id l : forall n r k n' r', absorb id n r l = (k, n', r', true) ->
  (forall m : bmeas F, In m l -> negative m = true -> In m k) /\
  (forall m : bmeas F, In m l -> bm_id m <> id -> In m k) /\ incl k l.
Proof.
  induction l as [|e t IH]; cbn [absorb]; intros n r k n' r' H; [discriminate|].
  destruct (String.eqb_spec (bm_id e) id) as [E|E].
  - destruct (negative e) eqn:N.
    + injection H as <- <- <-. split; [auto|]. split; [auto|]. intros x Hx; exact Hx.
    + apply IH in H as (H1 & H2 & H3). split; [|split].
      * intros m [<-|Hm] Nm; [congruence|auto].
      * intros m [<-|Hm] Nm; [congruence|auto].
      * intros x Hx. right. auto.
  - destruct (absorb id n r t) as [[[k0 n0] r0] e0] eqn:A. injection H as <- <- <- ->.
    apply IH in A as (H1 & H2 & H3). split; [|split].
    + intros m [<-|Hm] Nm; [left; reflexivity|right; auto].
    + intros m [<-|Hm] Nm; [left; reflexivity|right; auto].
    + intros x [<-|Hx]; [left; reflexivity|right; auto].
Qed.
(** a stop at a negative distance: negative entries and, for every identifier,
    an entry that was not negative are still there *)
Lemma dedup_err_keep fuel l k : (List.length l <= fuel)%nat -> dedup fuel l = (k, true) ->
  (forall m : bmeas F, In m l -> negative m = true -> In m k) /\
  (forall m : bmeas F, In m l -> negative m = false -> exists m', In m' k /\ bm_id m' = bm_id m /\ negative m' = false) /\
  (forall m : bmeas F, In m k -> exists m', In m' l /\ bm_id m' = bm_id m /\ bm_dist m' = bm_dist m).
Proof.
  revert l k. induction fuel as [|fuel IH]; intros [|x t] k L H; cbn [dedup] in H; try discriminate.
  destruct (negative x) eqn:N.
  { injection H as <-. split; [auto|]. split; [intros m Hm Nm; exists m; auto|intros m Hm; exists m; auto]. }
  destruct (absorb (bm_id x) 1 (f0 +! bm_rssi x) t) as [[[k0 n0] r0] e0] eqn:A. destruct e0.
  - injection H as <-. apply absorb_err_keep in A as (H1 & H2 & H3). split; [|split].
    + intros m [<-|Hm] Nm; [congruence|right; auto].
    + intros m [<-|Hm] Nm; [exists x; split; [left; reflexivity|auto]|].
      destruct (String.eqb_spec (bm_id m) (bm_id x)) as [E|E]; [exists x; split; [left; reflexivity|auto]|].
      exists m. split; [right; auto|auto].
    + intros m [<-|Hm]; [exists x; split; [left; reflexivity|auto]|]. exists m. split; [right; auto|auto].
  - destruct (dedup fuel k0) as [r e] eqn:D. injection H as <- ->.
    apply absorb_ok in A as (-> & A2 & _).
    assert (L' : (List.length (filter (fun e : bmeas F => negb (String.eqb (bm_id e) (bm_id x))) t) <= fuel)%nat).
    { cbn in L. eapply Nat.le_trans; [apply filter_length_le|lia]. }
    destruct (IH _ _ L' D) as (H1 & H2 & H3). split; [|split].
    + intros m [<-|Hm] Nm; [congruence|]. right. apply H1; [|exact Nm]. apply filter_In. split; [exact Hm|].
      destruct (String.eqb_spec (bm_id m) (bm_id x)) as [E|E]; [|reflexivity].
      exfalso. rewrite Forall_forall in A2. specialize (A2 m). rewrite A2 in Nm; [discriminate|].
      apply filter_In. split; [exact Hm|]. apply String.eqb_eq. exact E.
    + intros m Hm Nm. destruct (String.eqb_spec (bm_id m) (bm_id x)) as [E|E].
      * eexists. split; [left; reflexivity|]. cbn. split; [congruence|exact N].
      * destruct Hm as [<-|Hm]; [congruence|]. destruct (H2 m) as (m' & M1 & M2 & M3); [|exact Nm|].
        -- apply filter_In. split; [exact Hm|]. apply String.eqb_neq in E. rewrite E. reflexivity.
        -- exists m'. split; [right; exact M1|auto].
    + intros m [<-|Hm]; [exists x; split; [left; reflexivity|auto]|].
      destruct (H3 m Hm) as (m' & M1 & M2). apply filter_In in M1 as [M1 _]. exists m'. split; [right; exact M1|exact M2].
Qed.
End Gen.

(** ** C113 *)
(** after a success the kept measurements are ordered by distance, nearest first *)
Theorem C113_nearest_first {F} {NF : Num F} {SO : Sorter} (s s' : trilat F) : calculate s = Ok (s', 0%Z) ->
  StronglySorted (fun a b => (bm_dist b <! bm_dist a) = false) (tl_meas s').
Proof.
  unfold calculate. destruct (delete_duplicates (tl_meas s)) as [ms e0] eqn:D. destruct (negb (e0 =? 0)%Z) eqn:E0.
  { intros H. injection H as _ ->. discriminate. }
  intros H. apply bind_ok in H as (u & Hu & H). apply sort_res_ok in Hu as (_ & _ & Hs).
  destruct (known (tl_map s) u) as [|p t] eqn:Ek; [discriminate|].
  destruct (add_weighted _ _ _) as [x y]. assert (Es : tl_meas s' = map fst (known (tl_map s) u)) by (rewrite Ek; injection H as <-; reflexivity).
  rewrite Es, known_fst.
  clear -Hs. induction Hs as [|a l Hs IH Ha]; cbn [filter]; [constructor|].
  destruct (find_beacon _ _); [|exact IH]. constructor; [exact IH|].
  apply Forall_forall. intros c Hc. apply filter_In in Hc as [Hc _]. rewrite Forall_forall in Ha. exact (Ha c Hc).
Qed.
Print Assumptions C113_nearest_first.

(** after a failure because of a negative distance, all negative measurements
    and one that is not negative of each identifier that has one are still
    there, and nothing is there that was not: the next call fails as well *)
Theorem C113_negative {F} {NF : Num F} {SO : Sorter} (s s' : trilat F) : calculate s = Ok (s', 28%Z) ->
  tl_map s' = tl_map s /\
  (forall m, In m (tl_meas s) -> (bm_dist m <! f0) = true -> In m (tl_meas s')) /\
  (forall m, In m (tl_meas s) -> (bm_dist m <! f0) = false ->
     exists m', In m' (tl_meas s') /\ bm_id m' = bm_id m /\ (bm_dist m' <! f0) = false) /\
  (forall m, In m (tl_meas s') -> exists m', In m' (tl_meas s) /\ bm_id m' = bm_id m /\ bm_dist m' = bm_dist m) /\
  exists s'', calculate s' = Ok (s'', 28%Z).
Proof.
  unfold calculate at 1. destruct (delete_duplicates (tl_meas s)) as [ms e0] eqn:D. intros H.
  assert (E : e0 = 28%Z /\ s' = tl_update s ms).
  { destruct (negb (e0 =? 0)%Z); [injection H as <- ->; auto|]. apply bind_ok in H as (u & _ & H).
    destruct (known _ u); [discriminate|]. destruct (add_weighted _ _ _). discriminate. }
  destruct E as [-> ->]. clear H. unfold delete_duplicates in D. destruct (dedup _ _) as [k neg] eqn:Dd.
  destruct neg; [|destruct (Nat.ltb _ _); discriminate]. injection D as ->.
  assert (N : exists m, In m ms /\ negative m = true).
  { destruct (@dedup_err F NF _ _ _ (le_n _) Dd) as (m & M1 & M2). exists m. split; [|exact M2].
    apply dedup_err_keep in Dd as (H1 & _); [|lia]. apply H1; assumption. }
  apply dedup_err_keep in Dd as (H1 & H2 & H3); [|lia].
  assert (P := name_perm (tl_meas s)). cbn [tl_update tl_map tl_meas].
  assert (K1 : forall m, In m (tl_meas s) -> (bm_dist m <! f0) = true -> In m ms).
  { intros m Hm. apply H1. eapply Permutation_in; [exact P|exact Hm]. }
  split; [reflexivity|]. split; [exact K1|]. split; [|split].
  - intros m Hm. apply H2. eapply Permutation_in; [exact P|exact Hm].
  - intros m Hm. destruct (H3 m Hm) as (m' & M1 & M2). exists m'. split; [|exact M2].
    eapply Permutation_in; [symmetry; exact P|exact M1].
  - unfold calculate. cbn [tl_meas tl_update]. destruct (delete_duplicates ms) as [k2 e2] eqn:D2.
    apply delete_spec in D2 as [(-> & _)|(Hn & _)].
    + eexists. reflexivity.
    + destruct N as (m & Hm & Nm). rewrite Forall_forall in Hn. rewrite (Hn m Hm) in Nm. discriminate.
Qed.
Print Assumptions C113_negative.

(** after a failure for want of measurements or of known beacons: with fewer
    than three identifiers they are left averaged, one per identifier, and the
    next call fails as well; without known beacons nothing is left *)
Theorem C113_none {F} {NF : Num F} {SO : Sorter} (s s' : trilat F) : calculate s = Ok (s', 4%Z) ->
  tl_map s' = tl_map s /\
  ((distinct (tl_meas s) < 3)%nat -> one_per_id (tl_meas s) (tl_meas s') /\ exists s'', calculate s' = Ok (s'', 4%Z)) /\
  ((3 <= distinct (tl_meas s))%nat -> tl_meas s' = []).
Proof.
  unfold calculate at 1. destruct (delete_duplicates (tl_meas s)) as [ms e0] eqn:D. intros H.
  apply delete_spec in D as [(-> & _)|(Hn & H1 & H2 & [(-> & Hd)|(-> & Hd)])].
  - discriminate H.
  - injection H as <-. cbn [tl_update tl_map tl_meas]. split; [reflexivity|]. split; [intros _|lia].
    split; [exact H1|]. unfold calculate. cbn [tl_update tl_meas].
    destruct (delete_duplicates ms) as [k2 e2] eqn:D2.
    apply delete_spec in D2 as [(-> & m & Hm & Nm)|(_ & H3 & _ & [(-> & Hd2)|(-> & Hd2)])].
    + exfalso. destruct H1 as (_ & _ & H1). rewrite Forall_forall in *. destruct (H1 m Hm) as (m0 & M1 & _ & M2).
      specialize (Hn m0 M1). unfold negative in *. congruence.
    + eexists. reflexivity.
    + exfalso. assert (distinct ms = distinct (tl_meas s)); [|lia].
      rewrite <- (one_per_distinct H1). unfold distinct. destruct H1 as (H1 & _).
      rewrite (nodup_fixed_point string_dec H1). unfold ids. apply map_length.
  - change (negb (err_none =? 0)%Z) with false in H. cbv iota in H. apply bind_ok in H as (u & _ & H).
    destruct (known _ u); [|destruct (add_weighted _ _ _); discriminate]. injection H as <-.
    split; [reflexivity|]. split; [lia|reflexivity].
Qed.
Print Assumptions C113_none.

Lemma left_good (SO : Sorter) (s s' : trilat RX) e : Forall good_meas (tl_meas s) -> calculate s = Ok (s', e) -> Forall good_meas (tl_meas s').
Proof.
  intros Hg. unfold calculate. destruct (delete_duplicates (tl_meas s)) as [k e0] eqn:D. intros H.
  assert (K : Forall good_meas k).
  { apply delete_spec in D as [(_ & m & Hm & Nm)|(_ & (_ & _ & H1) & H2 & _)].
    - rewrite Forall_forall in Hg. rewrite (good_not_negative (Hg m Hm)) in Nm. discriminate.
    - rewrite Forall_forall in *. intros m Hm. destruct (H1 m Hm) as (m0 & M1 & M2 & M3). split.
      + specialize (H2 m Hm). unfold averaged in H2. rewrite H2. rewrite fsum_rval.
        * rewrite rx_ofZ, <- INR_IZR_INZ. rewrite rx_div; [eexists; reflexivity|]. apply not_0_INR.
          assert (I : In m0 (from_id (bm_id m) (ssort name_lt (tl_meas s)))).
          { apply filter_In. split; [eapply Permutation_in; [apply name_perm|exact M1]|rewrite M2; apply String.eqb_refl]. }
          destruct (from_id _ _); [destruct I|discriminate].
        * intros a Ha. apply filter_In in Ha as [Ha _]. apply Hg. eapply Permutation_in; [symmetry; apply name_perm|exact Ha].
      + rewrite <- M3. apply Hg. exact M1. }
  destruct (negb (e0 =? 0)%Z); [injection H as <- _; exact K|].
  apply bind_ok in H as (u & Hu & H). apply sort_res_ok in Hu as (_ & Hp & _).
  destruct (known (tl_map s) u) as [|p t] eqn:Ek; [injection H as <- _; constructor|].
  destruct (add_weighted _ _ _). injection H as <- _. cbn [tl_meas]. change (fst p :: map fst t) with (map fst (p :: t)).
  rewrite <- Ek, known_fst. apply Forall_forall. intros m Hm. apply filter_In in Hm as [Hm _]. rewrite Forall_forall in K.
  apply K. eapply Permutation_in; [symmetry; exact Hp|exact Hm].
Qed.
(** over the whole life of an object: the beacons are those given last, the
    coordinates are the sum of what a new object would have reported at each
    calculation *)
Theorem C113_object {SO : Sorter} ops : Forall good_op ops ->
  exists bs ms x y, held ops bs ms x y /\ tl_run tl0 ops = Ok (mkTl bs ms (Some x : RX) (Some y : RX)).
Proof.
  assert (App : forall ops o s s', tl_run s ops = Ok s' -> tl_run s (ops ++ [o]) = tl_run s' [o]).
  { clear. intros ops o. induction ops as [|[bs|ms|] t IH]; intros s s' H; cbn [tl_run app] in *.
    - injection H as ->. reflexivity.
    - apply IH. exact H.
    - apply IH. exact H.
    - destruct (calculate s) as [[s1 e1]| | |]; try discriminate. cbn [bind] in *. apply IH. exact H. }
  intros H. assert (G : exists bs ms x y, held ops bs ms x y /\ Forall good_beacon bs /\ Forall good_meas ms /\
    tl_run tl0 ops = Ok (mkTl bs ms (Some x : RX) (Some y : RX))).
  2: { destruct G as (bs & ms & x & y & G1 & _ & _ & G2). exists bs, ms, x, y. auto. }
  induction ops as [|o ops IH] using rev_ind.
  - exists [], [], 0%R, 0%R. split; [constructor|]. split; [constructor|]. split; [constructor|].
    cbn [tl_run]. unfold tl0. rewrite !rx_f0. reflexivity.
  - apply Forall_app in H as [H Ho]. inversion Ho as [|? ? Go _]; subst. clear Ho.
    destruct (IH H) as (bs & ms & x & y & I1 & I2 & I3 & I4). rewrite (App _ o _ _ I4).
    destruct o as [bs'|ms'|]; cbn [tl_run good_op] in *.
    + exists bs', ms, x, y. split; [econstructor; exact I1|]. auto.
    + exists bs, ms', x, y. split; [econstructor; exact I1|]. auto.
    + assert (O : is_ok (calculate (mkTl bs ms (f0 : RX) f0))).
      { apply calculate_defined. eapply Forall_impl; [|exact I3]. intros m (_ & d & E & _). exists d. exact E. }
      destruct O as ((s1 & e1) & E1). destruct (calculate_add x y I3 I2 E1) as (dx & dy & Ex & Ey & E2).
      rewrite E2. cbn [bind]. exists bs, (tl_meas s1), (x + dx)%R, (y + dy)%R.
      assert (Em : tl_map s1 = bs).
      { apply calculate_cases in E1 as (Q & _). exact Q. }
      split; [|split; [exact I2|split; [|reflexivity]]].
      * econstructor; [exact I1|]. exists e1. rewrite E1. destruct s1; cbn in *. subst. reflexivity.
      * exact (left_good _ (mkTl bs ms f0 f0) _ _ I3 E1).
Qed.
Print Assumptions C113_object.

Definition ob_bs {F} {NF : Num F} : list (beacon F) := [mkBeacon "a" (fofZ 3) (fofZ 4); mkBeacon "b" (fofZ (-3)) (fofZ 4); mkBeacon "c" (fofZ 5) (fofZ 0)].
Definition ob_m {F} {NF : Num F} id r d : bmeas F := mkBm id (fofZ r) (fofZ d).
Definition ob_calc := @calculate SF nf isorter.
Example C113_example : 
  (exists s, ob_calc (mkTl (@ob_bs SF nf) [@ob_m SF nf "c" (-50) 4; @ob_m SF nf "a" (-60) 2; @ob_m SF nf "b" (-70) 1] (@f0 SF nf) (@f0 SF nf)) = Ok (s, 0%Z) /\
     ids (tl_meas s) = ["b"; "a"; "c"]) /\
  (exists s, ob_calc (mkTl (@ob_bs SF nf) [@ob_m SF nf "b" (-50) (-4); @ob_m SF nf "a" (-60) 2; @ob_m SF nf "a" (-70) 1] (@f0 SF nf) (@f0 SF nf)) = Ok (s, 28%Z) /\
     ids (tl_meas s) = ["a"; "b"]) /\
  (exists s, ob_calc (mkTl (@ob_bs SF nf) [@ob_m SF nf "b" (-50) 4; @ob_m SF nf "a" (-60) 2; @ob_m SF nf "a" (-70) 1] (@f0 SF nf) (@f0 SF nf)) = Ok (s, 4%Z) /\
     ids (tl_meas s) = ["a"; "b"]).
Proof. repeat split; eexists; (split; [vm_compute; reflexivity|vm_compute; reflexivity]). Qed.
Example C113_example_object : Forall good_op [TFill ob_bs; TMeas [ob_m "c" (-50) 4; ob_m "a" (-60) 2; ob_m "b" (-70) 1]; TCalc; TFill []; TCalc].
Proof.
  assert (B : Forall good_beacon (@ob_bs RX _)) by (repeat constructor; eexists; apply rx_ofZ).
  assert (M : forall id r d, (0 < d)%Z -> good_meas (@ob_m RX _ id r d)).
  { intros id r d H. split; [eexists; apply rx_ofZ|]. exists (IZR d). split; [apply rx_ofZ|apply IZR_lt; exact H]. }
  constructor; [exact B|]. constructor; [cbn; repeat constructor; apply M; lia|]. repeat constructor.
Qed.
