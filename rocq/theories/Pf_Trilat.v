(** Proofs for the trilateration (C56, C57). *)
From Coq Require Import Reals Lra Lia List String Sorted Permutation Bool.
From Verif Require Import Lib NumReal LibR Trilat Spec_Radio Pf_Knn Pf_Tri Pf_Radio.
Import ListNotations.
Set Implicit Arguments.
Local Open Scope R_scope.
Local Open Scope string_scope.
Local Open Scope list_scope.
Local Open Scope R_scope.

Definition gap (l : level RX) (a b : radio RX) : R :=
  match place_of l (r_id a), place_of l (r_id b) with Some p, Some q => space_dist p q | _, _ => 0 end.
Definition apart (l : level RX) (a b : radio RX) : bool := Rltb (rval (r_dist a) + rval (r_dist b)) (gap l a b).
Lemma meet_apart l a b : place_of l (r_id a) <> None -> place_of l (r_id b) <> None ->
  (spheres_meet l a b <-> apart l a b = false).
Proof.
  intros Ha Hb. unfold spheres_meet, apart, gap. rewrite Rltb_false.
  destruct (place_of l (r_id a)) as [p|]; [|congruence]. destruct (place_of l (r_id b)) as [q|]; [|congruence]. split.
  - intros (p' & q' & E1 & E2 & H). injection E1 as <-. injection E2 as <-. exact H.
  - intros H. exists p, q. auto.
Qed.
Lemma sum3_nonneg x y z : 0 <= x * x + y * y + z * z.
Proof. assert (H1 := Rle_0_sqr x). assert (H2 := Rle_0_sqr y). assert (H3 := Rle_0_sqr z). unfold Rsqr in *. lra. Qed.
Lemma space_dist_sym p q : space_dist p q = space_dist q p.
Proof. unfold space_dist. f_equal. ring. Qed.
Lemma apart_sym l a b : apart l a b = apart l b a.
Proof.
  unfold apart, gap. rewrite Rplus_comm. destruct (place_of l (r_id a)), (place_of l (r_id b)); try reflexivity. rewrite space_dist_sym. reflexivity.
Qed.
Lemma apart_self l a : 0 <= rval (r_dist a) -> apart l a a = false.
Proof.
  intros H. unfold apart, gap. apply Rltb_false. destruct (place_of l (r_id a)) as [p|]; [|lra].
  assert (E : space_dist p p = 0) by (unfold space_dist; rewrite !Rminus_eq_0, Rmult_0_l, !Rplus_0_r; apply sqrt_0). lra.
Qed.

Lemma tx_delta_real l a b : (exists p, place_of l (r_id a) = Some p /\ real_xyz p) -> (exists p, place_of l (r_id b) = Some p /\ real_xyz p) ->
  tx_delta l (r_id a) (r_id b) = Ok (Some (gap l a b) : RX).
Proof.
  intros (p & Hp & (x1 & X1) & (y1 & Y1) & (z1 & Z1)) (q & Hq & (x2 & X2) & (y2 & Y2) & (z2 & Z2)).
  unfold gap. rewrite Hp, Hq. unfold tx_delta, get_tx. rewrite place_lookup in Hp, Hq.
  destruct (alookup (r_id a) (l_txs l)) as [t1|]; [|discriminate]. destruct (alookup (r_id b) (l_txs l)) as [t2|]; [|discriminate].
  injection Hp as <-. injection Hq as <-. cbn [at_or_throw bind]. unfold space_dist. rewrite X1, Y1, Z1, X2, Y2, Z2. cbn [rval].
  rewrite !rx_sub, !rx_mul, !rx_add, rx_sqrt by apply sum3_nonneg. reflexivity.
Qed.

Definition marks l (s : list (radio RX)) m1 : list string := map (@r_id RX) (filter (apart l m1) s).
Lemma bad_for_real l m1 : defined (r_dist m1) -> (exists p, place_of l (r_id m1) = Some p /\ real_xyz p) -> forall s bad,
  measured_on l s -> bad_for l s m1 bad = Ok (bad ++ marks l s m1).
Proof.
  intros D1 P1. unfold bad_for, marks. induction s as [|m t IH]; intros bad H; [cbn; rewrite app_nil_r; reflexivity|].
  inversion H as [|? ? [Dm Pm] Ht]; subst. cbn [fold_left bind]. rewrite (@tx_delta_real l m1 m P1 Pm). cbn [bind].
  assert (E : (r_dist m1 +! r_dist m <! (Some (gap l m1 m) : RX)) = apart l m1 m).
  { rewrite (rval_some D1), (rval_some Dm), rx_add, rx_ltb. reflexivity. }
  rewrite E. cbn [filter]. rewrite IH by exact Ht. destruct (apart l m1 m); cbn [map]; [rewrite <- app_assoc|]; reflexivity.
Qed.
Definition mem (id : string) (l : list string) : bool := existsb (String.eqb id) l.
Lemma mem_in id l : mem id l = true <-> In id l.
Proof.
  unfold mem. rewrite existsb_exists. split.
  - intros (x & Hx & E). apply String.eqb_eq in E. subst; exact Hx.
  - intros H. exists id. split; [exact H|apply String.eqb_refl].
Qed.
Definition step_bad l s bad m1 := if mem (r_id m1) bad then bad else bad ++ marks l s m1.
Lemma bad_ids_real l s : measured_on l s -> bad_ids l s = Ok (fold_left (step_bad l s) s []).
Proof.
  intros H. unfold bad_ids.
  assert (K : forall pre bad, measured_on l pre ->
    fold_left (fun (acc : res (list string)) m1 => bad <- acc ;; if existsb (String.eqb (r_id m1)) bad then Ok bad else bad_for l s m1 bad) pre (Ok bad)
    = Ok (fold_left (step_bad l s) pre bad)).
  { induction pre as [|m t IH]; intros bad Hp; [reflexivity|]. inversion Hp as [|? ? [Dm Pm] Ht]; subst. cbn [fold_left bind].
    unfold step_bad at 2. fold (mem (r_id m) bad). destruct (mem (r_id m) bad); [apply IH, Ht|].
    rewrite bad_for_real by assumption. apply IH, Ht. }
  apply K, H.
Qed.

Lemma fold_bad_incl l s pre : forall bad, incl bad (fold_left (step_bad l s) pre bad).
Proof.
  induction pre as [|m t IH]; intros bad; [apply incl_refl|]. cbn [fold_left]. eapply incl_tran; [|apply IH].
  unfold step_bad. destruct (mem _ bad); [apply incl_refl|apply incl_appl, incl_refl].
Qed.
Lemma fold_bad_closed l s pre : forall bad m1, In m1 pre -> let B := fold_left (step_bad l s) pre bad in
  ~ In (r_id m1) B -> forall m2, In m2 s -> apart l m1 m2 = true -> In (r_id m2) B.
Proof.
  induction pre as [|m t IH]; intros bad m1 Hi B Hn m2 H2 Ha; [destruct Hi|]. subst B. cbn [fold_left] in *.
  destruct Hi as [->|Hi]; [|eapply IH; eauto].
  apply (fold_bad_incl l s t). unfold step_bad. destruct (mem (r_id m1) bad) eqn:E.
  - exfalso. apply Hn. apply (fold_bad_incl l s t). unfold step_bad. rewrite E. apply mem_in, E.
  - apply in_or_app. right. unfold marks. apply in_map. apply filter_In. auto.
Qed.

(** every rejected measurement is rejected because of a closer one that stays *)
Lemma fold_bad_blame l s : NoDup (map (@r_id RX) s) -> Forall (fun m => 0 <= rval (r_dist m)) s -> StronglySorted by_dist s ->
  forall P rest, s = P ++ rest -> let B := fold_left (step_bad l s) P [] in
  forall m, In m s -> In (r_id m) B -> exists m1, In m1 P /\ ~ In (r_id m1) B /\ apart l m1 m = true /\ by_dist m1 m.
Proof.
  intros Hn Hpos Hs. induction P as [|m0 P IH] using rev_ind; intros rest E B m Hm Hb; [destruct Hb|].
  subst B. rewrite fold_left_app in *. cbn [fold_left] in *. set (B0 := fold_left (step_bad l s) P []) in *.
  rewrite <- app_assoc in E. cbn [app] in E.
  assert (inj : forall a b, In a s -> In b s -> r_id a = r_id b -> a = b) by (intros a b Ha Hb' X; eapply nodup_map_inj; eauto).
  assert (Hm0 : In m0 s) by (rewrite E; apply in_or_app; right; left; reflexivity).
  assert (HP : incl P s) by (intros x Hx; rewrite E; apply in_or_app; left; exact Hx).
  unfold step_bad in *. destruct (mem (r_id m0) B0) eqn:Em.
  - destruct (IH _ E m Hm Hb) as (m1 & H1 & H2 & H3). exists m1. split; [apply in_or_app; left; exact H1|auto].
  - assert (Nm0 : ~ In (r_id m0) B0) by (intros X; apply mem_in in X; congruence).
    assert (Keep : forall m1, In m1 P -> ~ In (r_id m1) B0 -> ~ In (r_id m1) (B0 ++ marks l s m0)).
    { intros m1 H1 H2 X. apply in_app_or in X. destruct X as [X|X]; [auto|]. unfold marks in X. apply in_map_iff in X.
      destruct X as (y & Ey & Hy). apply filter_In in Hy. destruct Hy as [Hy Ay]. assert (y = m1) by (apply inj; auto). subst y.
      apply Nm0. apply (@fold_bad_closed l s P [] m1 H1 H2 m0 Hm0). rewrite apart_sym. exact Ay. }
    apply in_app_or in Hb. destruct (in_dec string_dec (r_id m) B0) as [Hb0|Hb0].
    + destruct (IH _ E m Hm Hb0) as (m1 & H1 & H2 & H3 & H4). exists m1.
      split; [apply in_or_app; left; exact H1|]. split; [apply Keep; assumption|auto].
    + destruct Hb as [Hb|Hb]; [contradiction|]. unfold marks in Hb. apply in_map_iff in Hb. destruct Hb as (y & Ey & Hy).
      apply filter_In in Hy. destruct Hy as [Hy Ay]. assert (y = m) by (apply inj; auto). subst y.
      exists m0. split; [apply in_or_app; right; left; reflexivity|]. split; [|split; [exact Ay|]].
      * intros X. apply in_app_or in X. destruct X as [X|X]; [auto|]. unfold marks in X. apply in_map_iff in X.
        destruct X as (y & E1 & Hy1). apply filter_In in Hy1. destruct Hy1 as [Hy1 A1]. assert (y = m0) by (apply inj; auto). subst y.
        rewrite apart_self in A1; [discriminate|]. rewrite Forall_forall in Hpos. apply Hpos, Hm0.
      * (* m comes after m0 *)
        rewrite E in Hm. apply in_app_or in Hm. destruct Hm as [Hm|[<-|Hm]].
        -- exfalso. apply Nm0. apply (@fold_bad_closed l s P [] m Hm Hb0 m0 Hm0). rewrite apart_sym. exact Ay.
        -- unfold by_dist. lra.
        -- rewrite E in Hs. clear - Hs Hm. induction P as [|x t IHt]; cbn [app] in Hs; inversion Hs as [|? ? Ht Hf]; subst; [|auto].
           rewrite Forall_forall in Hf. apply Hf, Hm.
Qed.

Section S.
Context {SO : Sorter}.
Lemma dist_swo ms : Forall (fun m : radio RX => defined (r_dist m)) ms -> strict_weak_on (fun a b : radio RX => r_dist a <! r_dist b) ms.
Proof.
  intros H. apply (@lex_swo _ _ (fun m => [rval (r_dist m)]) 1); [|reflexivity]. intros a b Ha Hb. rewrite Forall_forall in H.
  rewrite (rval_some (H a Ha)), (rval_some (H b Hb)), rx_ltb, Rltb_true. cbn. intuition lra.
Qed.

Lemma sorted_forms (ms s : list (radio RX)) : Forall (fun m : radio RX => defined (r_dist m)) ms -> sort_res (fun a b : radio RX => r_dist a <! r_dist b) ms = Ok s ->
  Permutation ms s /\ StronglySorted by_dist s.
Proof.
  intros H E. apply sort_res_ok in E. destruct E as (_ & Hp & Hs). split; [exact Hp|].
  assert (Hd : Forall (fun m : radio RX => defined (r_dist m)) s).
  { apply Forall_forall. intros m Hm. apply Permutation_sym in Hp. apply (Permutation_in _ Hp) in Hm. rewrite Forall_forall in H. apply H, Hm. }
  clear Hp H ms. induction Hs as [|m t Ht IH Hf]; [constructor|]. inversion Hd as [|? ? D Dt]; subst. constructor; [apply IH, Dt|].
  rewrite Forall_forall in *. intros x Hx. specialize (Hf x Hx). rewrite (rval_some D), (rval_some (Dt x Hx)), rx_ltb, Rltb_false in Hf. exact Hf.
Qed.

(** C56 *)
Theorem intersected_exact (l : level RX) ms : measured_on l ms ->
  exists s kept, intersected l ms = Ok kept /\ Permutation ms s /\ StronglySorted by_dist s /\
    (exists keep : radio RX -> bool, kept = filter keep s) /\ StronglySorted by_dist kept /\
    (forall a b, In a kept -> In b kept -> spheres_meet l a b) /\
    (NoDup (map (@r_id RX) ms) -> Forall (fun m => 0 <= rval (r_dist m)) ms ->
     forall m, In m ms -> ~ In m kept -> exists m1, In m1 kept /\ by_dist m1 m /\ ~ spheres_meet l m1 m).
Proof.
  intros H. assert (Hd : Forall (fun m : radio RX => defined (r_dist m)) ms) by (eapply Forall_impl; [|exact H]; intros m [D _]; exact D).
  unfold intersected. set (s := ssort (fun a b : radio RX => r_dist a <! r_dist b) ms).
  assert (Es : sort_res (fun a b : radio RX => r_dist a <! r_dist b) ms = Ok s) by (apply sort_res_swo, dist_swo, Hd).
  rewrite Es. cbn [bind]. destruct (sorted_forms Hd Es) as [Hp Hs].
  assert (Hm : measured_on l s).
  { apply Forall_forall. intros m Hm. apply Permutation_sym in Hp. apply (Permutation_in _ Hp) in Hm. unfold measured_on in H. rewrite Forall_forall in H. apply H, Hm. }
  rewrite bad_ids_real by exact Hm. cbn [bind]. set (B := fold_left (step_bad l s) s []).
  exists s. eexists. split; [reflexivity|]. split; [exact Hp|]. split; [exact Hs|].
  assert (HK : forall m, In m (filter (fun m => negb (existsb (String.eqb (r_id m)) B)) s) <-> In m s /\ ~ In (r_id m) B).
  { intros m. rewrite filter_In. fold (mem (r_id m) B). rewrite <- mem_in. destruct (mem (r_id m) B); cbn; intuition congruence. }
  assert (HP : forall m, In m s -> place_of l (r_id m) <> None).
  { intros m Hi. unfold measured_on in Hm. rewrite Forall_forall in Hm. destruct (Hm m Hi) as (_ & p & E & _). congruence. }
  split; [eexists; reflexivity|]. split.
  { clearbody B. clear - Hs. induction Hs as [|m t Ht IH Hf]; [constructor|]. cbn [filter]. destruct (negb _); [|exact IH]. constructor; [exact IH|].
    apply Forall_forall. intros x Hx. apply filter_In in Hx. rewrite Forall_forall in Hf. apply Hf, Hx. }
  split.
  - intros a b Ha Hb. apply HK in Ha. apply HK in Hb. apply meet_apart; [apply HP, Ha|apply HP, Hb|].
    destruct (apart l a b) eqn:E; [|reflexivity]. exfalso. apply (proj2 Hb).
    apply (@fold_bad_closed l s s [] a (proj1 Ha) (proj2 Ha) b (proj1 Hb) E).
  - intros Hn Hpos m Hi Hk. assert (His : In m s) by (apply (Permutation_in _ Hp), Hi).
    assert (HB : In (r_id m) B).
    { destruct (in_dec string_dec (r_id m) B) as [X|X]; [exact X|]. exfalso. apply Hk, HK. auto. }
    destruct (@fold_bad_blame l s) with (P := s) (rest := @nil (radio RX)) (m := m) as (m1 & H1 & H2 & H3 & H4); auto.
    + apply (Permutation_NoDup (Permutation_map _ Hp)), Hn.
    + apply Forall_forall. intros x Hx. apply Permutation_sym in Hp. apply (Permutation_in _ Hp) in Hx. rewrite Forall_forall in Hpos. apply Hpos, Hx.
    + rewrite app_nil_r. reflexivity.
    + exists m1. split; [apply HK; auto|]. split; [exact H4|].
      intros X. apply meet_apart in X; [congruence|apply HP, H1|apply HP, His].
Qed.

(** exact distances: nothing is dropped *)
Lemma triangle3 a b c d e f : sqrt ((a+d)*(a+d) + (b+e)*(b+e) + (c+f)*(c+f)) <= sqrt (a*a+b*b+c*c) + sqrt (d*d+e*e+f*f).
Proof.
  assert (H1 := sum3_nonneg a b c). assert (H2 := sum3_nonneg d e f). assert (H3 := sum3_nonneg (a+d) (b+e) (c+f)).
  assert (S1 := sqrt_pos (a*a+b*b+c*c)). assert (S2 := sqrt_pos (d*d+e*e+f*f)).
  apply Rsqr_incr_0_var; [|lra]. unfold Rsqr. rewrite sqrt_sqrt by exact H3.
  assert (Q1 := sqrt_sqrt _ H1). assert (Q2 := sqrt_sqrt _ H2).
  set (u := sqrt (a*a+b*b+c*c)) in *. set (v := sqrt (d*d+e*e+f*f)) in *.
  assert (CS : a*d + b*e + c*f <= u * v).
  { apply Rsqr_incr_0_var; [|apply Rmult_le_pos; assumption]. unfold Rsqr.
    replace (u*v*(u*v)) with ((u*u)*(v*v)) by ring. rewrite Q1, Q2.
    assert (K := sum3_nonneg (a*e-b*d) (a*f-c*d) (b*f-c*e)). 
    replace ((a*a+b*b+c*c)*(d*d+e*e+f*f)) with ((a*d+b*e+c*f)*(a*d+b*e+c*f) + ((a*e-b*d)*(a*e-b*d)+(a*f-c*d)*(a*f-c*d)+(b*f-c*e)*(b*f-c*e))) by ring. lra. }
  replace ((u+v)*(u+v)) with (u*u+v*v+2*(u*v)) by ring. rewrite Q1, Q2. lra.
Qed.
Lemma space_triangle p q r : space_dist p q <= space_dist p r + space_dist q r.
Proof.
  rewrite (space_dist_sym q r). unfold space_dist.
  replace (rval (zx q) - rval (zx p)) with ((rval (zx r) - rval (zx p)) + (rval (zx q) - rval (zx r))) by ring.
  replace (rval (zy q) - rval (zy p)) with ((rval (zy r) - rval (zy p)) + (rval (zy q) - rval (zy r))) by ring.
  replace (rval (zz q) - rval (zz p)) with ((rval (zz r) - rval (zz p)) + (rval (zz q) - rval (zz r))) by ring.
  apply triangle3.
Qed.
Lemma exact_measured l P ms : exact_from l P ms -> measured_on l ms.
Proof.
  intros [_ H]. eapply Forall_impl; [|exact H]. intros m (p & Hp & Rp & E). split; [exists (space_dist p P); exact E|eauto].
Qed.
Lemma exact_not_apart l P s : exact_from l P s -> forall a b, In a s -> In b s -> apart l a b = false.
Proof.
  intros [_ H] a b Ha Hb. rewrite Forall_forall in H. destruct (H a Ha) as (p & Hp & _ & Ep). destruct (H b Hb) as (q & Hq & _ & Eq).
  unfold apart, gap. rewrite Hp, Hq, Ep, Eq. cbn [rval]. apply Rltb_false. apply space_triangle.
Qed.
Lemma filter_none A (q : A -> bool) l : (forall x, In x l -> q x = false) -> filter q l = [].
Proof. induction l as [|x t IH]; intros H; [reflexivity|]. cbn. rewrite H by (left; reflexivity). apply IH. intros y Hy. apply H. right; exact Hy. Qed.
Lemma filter_all A (q : A -> bool) l : (forall x, In x l -> q x = true) -> filter q l = l.
Proof. induction l as [|x t IH]; intros H; [reflexivity|]. cbn. rewrite H by (left; reflexivity). f_equal. apply IH. intros y Hy. apply H. right; exact Hy. Qed.
Theorem exact_kept (l : level RX) P ms : exact_from l P ms ->
  exists s, intersected l ms = Ok s /\ Permutation ms s /\ StronglySorted by_dist s.
Proof.
  intros He. assert (H := exact_measured He).
  assert (Hd : Forall (fun m : radio RX => defined (r_dist m)) ms) by (eapply Forall_impl; [|exact H]; intros m [D _]; exact D).
  unfold intersected. set (s := ssort (fun a b : radio RX => r_dist a <! r_dist b) ms).
  assert (Es : sort_res (fun a b : radio RX => r_dist a <! r_dist b) ms = Ok s) by (apply sort_res_swo, dist_swo, Hd).
  rewrite Es. cbn [bind]. destruct (sorted_forms Hd Es) as [Hp Hs].
  assert (Hes : exact_from l P s).
  { destruct He as [HP He]. split; [exact HP|]. apply Forall_forall. intros m Hm. apply Permutation_sym in Hp. apply (Permutation_in _ Hp) in Hm. rewrite Forall_forall in He. apply He, Hm. }
  rewrite bad_ids_real by (eapply exact_measured; exact Hes). cbn [bind].
  assert (K : forall pre, incl pre s -> fold_left (step_bad l s) pre [] = []).
  { induction pre as [|m t IH]; intros Hi; [reflexivity|]. cbn [fold_left]. unfold step_bad at 2. cbn [mem existsb app].
    assert (marks l s m = []) as ->.
    { unfold marks. rewrite filter_none; [reflexivity|]. intros x Hx. eapply exact_not_apart; [exact Hes|apply Hi; left; reflexivity|exact Hx]. }
    apply IH. intros x Hx. apply Hi. right; exact Hx. }
  rewrite K by apply incl_refl. exists s. split; [|auto]. f_equal. apply filter_all. reflexivity.
Qed.

(** the linear system is right: the true point solves it *)
Theorem system_right (l : level RX) P m1 m : exact_from l P [m1; m] ->
  exists p, place_of l (r_id m1) = Some p /\
  let '(a1, a2, a3, c) := sphere_row l m1 m in
  rval a1 * (rval (zx P) - rval (zx p)) + rval a2 * (rval (zy P) - rval (zy p)) + rval a3 * (rval (zz P) - rval (zz p)) = rval c.
Proof.
  intros [_ H]. inversion H as [|? ? (p & Hp & Rp & Ep) Ht]; subst. inversion Ht as [|? ? (q & Hq & Rq & Eq) _]; subst.
  exists p. split; [exact Hp|]. unfold sphere_row. rewrite Hp, Hq, Ep, Eq. cbn [rval]. unfold space_dist.
  rewrite !sqrt_sqrt by apply sum3_nonneg. field.
Qed.
Lemma tri_row_real l m1 m t1 t2 : alookup (r_id m1) (l_txs l) = Some t1 -> alookup (r_id m) (l_txs l) = Some t2 ->
  real_xyz (t_pt t1) -> real_xyz (t_pt t2) -> defined (r_dist m1) -> defined (r_dist m) ->
  tri_row t1 t2 (r_dist m1) (r_dist m) = sphere_row l m1 m.
Proof.
  intros E1 E2 ((x1 & X1) & (y1 & Y1) & (z1 & Z1)) ((x2 & X2) & (y2 & Y2) & (z2 & Z2)) (d1 & D1) (d2 & D2).
  unfold tri_row, sphere_row. rewrite !place_lookup, E1, E2, X1, Y1, Z1, X2, Y2, Z2, D1, D2. cbn [rval].
  rewrite !rx_sub, !rx_powi, !rx_sub, !rx_add, rx_ofZ, rx_div by lra. f_equal. f_equal. field.
Qed.
Lemma rows_real l m1 t1 : alookup (r_id m1) (l_txs l) = Some t1 -> real_xyz (t_pt t1) -> defined (r_dist m1) -> forall rest, measured_on l rest ->
  mapM (fun m => t2 <- get_tx l (r_id m) ;; Ok (tri_row t1 t2 (r_dist m1) (r_dist m))) rest = Ok (map (sphere_row l m1) rest).
Proof.
  intros E1 R1 D1. induction rest as [|m t IH]; intros H; [reflexivity|]. inversion H as [|? ? (D & p & Hp & Rp) Ht]; subst.
  cbn [mapM map]. rewrite place_lookup in Hp. unfold get_tx at 1. destruct (alookup (r_id m) (l_txs l)) as [t2|] eqn:E2; [|discriminate]. injection Hp as <-.
  cbn [at_or_throw bind]. rewrite IH by exact Ht. cbn [bind]. rewrite (tri_row_real l m1 m E1 E2) by assumption. reflexivity.
Qed.
Lemma level_radio_all l ms : measured_on l ms -> level_radio l ms = ms.
Proof.
  intros H. apply filter_all. intros m Hm. unfold measured_on in H. rewrite Forall_forall in H. destruct (H m Hm) as (_ & p & Hp & _).
  apply contains_place. congruence.
Qed.

(** C57, what is computed *)
Lemma terms_real l x y ms : (forall m, In m ms -> exists p, place_of l (r_id m) = Some p /\ real_xyz p) -> (forall m, In m ms -> defined (r_dist m)) -> Forall (coded_real l x y) ms ->
  mapM (fun m => t <- get_tx l (r_id m) ;; Ok (alt_term (Some x : RX) (Some y) t (r_dist m))) ms = Ok (map (fun m => Some (Some (coded_term l x y m) : RX)) ms).
Proof.
  induction ms as [|m t IH]; intros HP HD H; [reflexivity|]. inversion H as [|? ? (p & Hp & Hx & Hd & Hr) Ht]; subst.
  destruct (HP m (or_introl eq_refl)) as (p' & Hp' & (x0 & X0) & (y0 & Y0) & (z0 & Z0)). assert (p' = p) by congruence. subst p'.
  cbn [mapM map]. assert (Hq := Hp). rewrite place_lookup in Hp. unfold get_tx at 1. destruct (alookup (r_id m) (l_txs l)) as [tx|] eqn:E2; [|discriminate]. injection Hp as <-.
  cbn [at_or_throw bind]. rewrite IH; [|intros m' Hm'; apply HP; right; exact Hm'|intros m' Hm'; apply HD; right; exact Hm'|exact Ht]. cbn [bind].
  unfold alt_term, coded_term. rewrite Hq. destruct (HD m (or_introl eq_refl)) as [d D]. rewrite D, X0, Y0, Z0 in *. cbn [rval] in *.
  rewrite !rx_sub, !rx_powi, rx_ofZ, rx_sub, rx_pow by lra. rewrite rx_sub.
  replace (d ^ 2) with (d * d) by ring. replace ((y - y0) ^ 2) with ((y - y0) * (y - y0)) by ring.
  rewrite rx_sqrt by lra. cbn [fisnan num_real]. rewrite rx_add, rx_div by lra. reflexivity.
Qed.
Theorem altitude_formula (svd : list (RX * RX * RX) -> list RX -> RX * RX * RX) (l : level RX) ms m1 rest x y z p :
  measured_on l ms -> intersected l ms = Ok (m1 :: rest) -> (3 <= List.length rest)%nat -> place_of l (r_id m1) = Some p ->
  let rows := map (sphere_row l m1) rest in
  svd (map fst rows) (map snd rows) = (Some x, Some y, z) ->
  Forall (coded_real l (x + rval (zx p)) (y + rval (zy p))) (m1 :: rest) ->
  altitude svd l ms = Ok (Some (Some (rsum (map (coded_term l (x + rval (zx p)) (y + rval (zy p))) (m1 :: rest))) : RX)).
Proof.
  intros Hm Hi Hl Hp rows Hsvd Hc. destruct (intersected_exact Hm) as (s & kept & E & Hperm & _ & (keep & Hk) & _). rewrite Hi in E. apply Ok_inj in E. subst kept.
  assert (Hin : forall m, In m (m1 :: rest) -> In m ms).
  { intros m H. rewrite Hk in H. apply filter_In in H. apply Permutation_sym in Hperm. apply (Permutation_in _ Hperm). apply H. }
  assert (HM : forall m, In m (m1 :: rest) -> defined (r_dist m) /\ exists p, place_of l (r_id m) = Some p /\ real_xyz p).
  { intros m H. unfold measured_on in Hm. rewrite Forall_forall in Hm. apply Hm, Hin, H. }
  unfold altitude. rewrite level_radio_all, Hi by exact Hm. cbn [bind]. 
  replace (Nat.ltb (List.length (m1 :: rest)) 4) with false by (symmetry; apply Nat.ltb_ge; cbn [List.length]; lia).
  destruct (HM m1 (or_introl eq_refl)) as (D1 & p' & Hp' & Rp). assert (p' = p) by congruence. subst p'.
  assert (Hq := Hp). rewrite place_lookup in Hp. unfold get_tx at 1. destruct (alookup (r_id m1) (l_txs l)) as [t1|] eqn:E1; [|discriminate]. injection Hp as <-.
  cbn [at_or_throw bind]. rewrite (@rows_real l m1 t1 E1 Rp D1).
  2:{ apply Forall_forall. intros m H. apply HM. right; exact H. }
  cbn [bind]. fold rows. rewrite Hsvd. destruct Rp as ((x0 & X0) & (y0 & Y0) & _). rewrite X0, Y0 in *. cbn [rval] in *. rewrite !rx_add.
  rewrite terms_real; [|intros m H; apply HM, H|intros m H; apply HM, H|exact Hc]. cbn [bind].
  assert (FM : forall ms, flat_map (fun o => match o with Some v => [v] | None => [] end) (map (fun m => Some (Some (coded_term l (x + x0) (y + y0) m) : RX)) ms)
             = map (fun m => Some (coded_term l (x + x0) (y + y0) m) : RX) ms).
  { induction ms0 as [|m t IH]; [reflexivity|]. cbn [map flat_map app]. f_equal. exact IH. }
  rewrite FM. cbn [map]. f_equal. f_equal.
  change (Some (coded_term l (x + x0) (y + y0) m1) :: map (fun m => Some (coded_term l (x + x0) (y + y0) m) : RX) rest) with (map (fun m => Some (coded_term l (x + x0) (y + y0) m) : RX) (m1 :: rest)).
  rewrite fsum_rval by (intros v Hv; apply in_map_iff in Hv; destruct Hv as (m & <- & _); eexists; reflexivity).
  rewrite map_map. reflexivity.
Qed.

(** C57, the witness: four transmitters around the true point, exact distances *)
Definition al_tx (id : string) (x y : R) : string * transmitter RX :=
  (id, mkTx id (mkXYZ (Some x : RX) (Some y : RX) (Some 0 : RX)) (mkPL (Some 0 : RX) (Some 0 : RX) (Some 0 : RX)) TBEACON).
Definition al_level : level RX :=
  mkLevel "L" (mkGeo (Some 0 : RX) (Some 0 : RX)) [al_tx "a" 3 4; al_tx "b" 3 (-4); al_tx "c" (-3) 4; al_tx "d" (-3) (-4)]
    (mkRM [] []) (mkBox (mkXY (Some 0 : RX) (Some 0 : RX)) (mkXY (Some 0 : RX) (Some 0 : RX))) (fun _ _ => true) (mkGraph [] []).
Definition al_radio (id : string) : radio RX := mkRadio BEACON id (Some 0 : RX) (Some 0 : RX) (Some 5 : RX) (Some 0 : RX).
Definition al_ms : list (radio RX) := [al_radio "a"; al_radio "b"; al_radio "c"; al_radio "d"].
Definition al_P : XYZ RX := mkXYZ (Some 0 : RX) (Some 0 : RX) (Some 0 : RX).
Definition al_place (m : radio RX) (x y : R) : Prop := place_of al_level (r_id m) = Some (mkXYZ (Some x : RX) (Some y : RX) (Some 0 : RX)).
Lemma al_in m : In m al_ms -> r_dist m = (Some 5 : RX) /\ exists x y, al_place m x y /\ x * x = 9 /\ y * y = 16.
Proof.
  intros [<-|[<-|[<-|[<-|[]]]]]; (split; [reflexivity|]).
  - exists 3, 4. split; [reflexivity|lra].
  - exists 3, (-4). split; [reflexivity|lra].
  - exists (-3), 4. split; [reflexivity|lra].
  - exists (-3), (-4). split; [reflexivity|lra].
Qed.
Lemma al_exact : exact_from al_level al_P al_ms.
Proof.
  split; [repeat split; eexists; reflexivity|]. apply Forall_forall. intros m Hm. destruct (@al_in m Hm) as (E & x & y & Hp & Hx & Hy).
  eexists. split; [exact Hp|]. split; [repeat split; eexists; reflexivity|]. rewrite E. unfold space_dist, al_P. cbn [zx zy zz rval].
  replace ((0 - x) * (0 - x) + (0 - y) * (0 - y) + (0 - 0) * (0 - 0)) with (5 * 5) by (replace (5*5) with (9+16) by ring; rewrite <- Hx, <- Hy; ring).
  rewrite sqrt_square by lra. reflexivity.
Qed.
Lemma al_pow x y : x * x = 9 -> y * y = 16 -> exists v, 0 < v <= 1 /\ fpow (Some (0 - x) : RX) (Some (2 - (0 - y) ^ 2)) = Some v.
Proof.
  intros Hx Hy. replace (2 - (0 - y) ^ 2) with (-14) by (replace ((0 - y) ^ 2) with (y * y) by ring; lra).
  assert (x = 3 \/ x = -3) as [-> | ->].
  { assert (H : (x - 3) * (x + 3) = 0) by (replace ((x - 3) * (x + 3)) with (x * x - 9) by ring; lra).
    apply Rmult_integral in H. lra. }
  - change (fpow (Some (0 - 3) : RX) (Some (-14))) with (rpow (Some (0 - 3)) (Some (-14))). unfold rpow.
    rewrite (proj2 (Reqb_false (-14) 0)) by lra. rewrite (proj2 (Rltb_false 0 (0 - 3))) by lra. rewrite (proj2 (Reqb_false (0 - 3) 0)) by lra.
    assert (HI : Int_part (-14) = (-14)%Z).
    { unfold Int_part. rewrite <- (@tech_up (-14) (-13)%Z) by lra. reflexivity. }
    rewrite HI, (proj2 (Reqb_true (-14) (IZR (-14)))) by reflexivity.
    exists (powerRZ (0 - 3) (-14)). split; [|reflexivity]. unfold powerRZ.
    replace ((0 - 3) ^ Pos.to_nat 14) with 4782969 by (change (Pos.to_nat 14) with 14%nat; simpl; ring). lra.
  - replace (0 - -3) with 3 by ring. exists (Rpower 3 (-14)). rewrite rx_pow by lra. split; [|reflexivity]. split; [apply Rpower_gt0|].
    replace 1 with (Rpower 3 0) by (apply Rpower_O; lra). left. apply Rpower_lt; lra.
Qed.
Lemma al_term m : In m al_ms -> exists v, 9 / 10 < v /\ (t <- get_tx al_level (r_id m) ;; Ok (alt_term (Some 0 : RX) (Some 0) t (r_dist m))) = Ok (Some (Some v : RX)).
Proof.
  intros Hm. destruct (@al_in m Hm) as (E & x & y & Hp & Hx & Hy). destruct (@al_pow x y Hx Hy) as (v & Hv & Ev).
  unfold al_place in Hp. rewrite place_lookup in Hp. unfold get_tx. destruct (alookup (r_id m) (l_txs al_level)) as [t|]; [|discriminate].
  injection Hp as Hp. exists (sqrt (25 - v) / 5). split.
  - apply Rmult_lt_reg_r with 5; [lra|]. unfold Rdiv at 2. rewrite Rmult_assoc, Rinv_l, Rmult_1_r by lra.
    replace (9 / 10 * 5) with (sqrt ((9/2) * (9/2))) by (rewrite sqrt_square by lra; lra). apply sqrt_lt_1_alt. lra.
  - cbn [at_or_throw bind]. unfold alt_term. rewrite Hp, E. cbn [zx zy zz]. rewrite !rx_sub, !rx_powi, rx_ofZ, rx_sub, Ev, rx_sub.
    replace (5 ^ 2) with 25 by ring. rewrite rx_sqrt by lra. cbn [fisnan num_real]. rewrite rx_add, rx_div by lra. do 3 f_equal. lra.
Qed.
Lemma al_terms ms : incl ms al_ms -> exists vs, mapM (fun m => t <- get_tx al_level (r_id m) ;; Ok (alt_term (Some 0 : RX) (Some 0) t (r_dist m))) ms = Ok (map (fun v => Some (Some v : RX)) vs) /\
  List.length vs = List.length ms /\ Forall (fun v => 9 / 10 < v) vs.
Proof.
  induction ms as [|m t IH]; intros Hi; [exists []; repeat split; constructor|].
  destruct (@al_term m (Hi m (or_introl eq_refl))) as (v & Hv & E). destruct IH as (vs & E1 & E2 & E3); [intros x Hx; apply Hi; right; exact Hx|].
  exists (v :: vs). cbn [mapM map List.length]. rewrite E. cbn [bind]. rewrite E1. cbn [bind]. repeat split; [congruence|constructor; assumption].
Qed.
Theorem altitude_wrong svd : solver_for svd al_level al_ms ->
  exists w, altitude svd al_level al_ms = Ok (Some (Some w : RX)) /\ 3 < w.
Proof.
  intros Hsv. destruct (exact_kept al_exact) as (s & Hi & Hp & _).
  assert (Hm := exact_measured al_exact). unfold altitude. rewrite level_radio_all, Hi by exact Hm. cbn [bind].
  assert (Hin : forall m, In m s <-> In m al_ms) by (intros m; split; [apply Permutation_in, Permutation_sym, Hp|apply Permutation_in, Hp]).
  assert (Hlen : List.length s = 4%nat) by (rewrite <- (Permutation_length Hp); reflexivity).
  destruct s as [|m1 rest]; [discriminate|]. rewrite Hlen. cbn [Nat.ltb Nat.leb].
  destruct (@al_in m1) as (E1 & x1 & y1 & Hp1 & Hx1 & Hy1); [apply Hin; left; reflexivity|].
  assert (Hq1 := Hp1). unfold al_place in Hp1. rewrite place_lookup in Hp1. unfold get_tx at 1. destruct (alookup (r_id m1) (l_txs al_level)) as [t1|] eqn:Et1; [|discriminate]. injection Hp1 as Hp1.
  cbn [at_or_throw bind]. rewrite (@rows_real al_level m1 t1 Et1).
  2:{ rewrite Hp1. repeat split; eexists; reflexivity. } 2:{ rewrite E1. eexists; reflexivity. }
  2:{ apply Forall_forall. intros m H. unfold measured_on in Hm. rewrite Forall_forall in Hm. apply Hm, Hin. right; exact H. }
  cbn [bind]. specialize (Hsv m1 rest Hp). cbv zeta in Hsv. set (rows := map (sphere_row al_level m1) rest) in *.
  destruct (svd (map fst rows) (map snd rows)) as [[sx sy] sz]. destruct Hsv as ((x & ->) & (y & ->) & (z & ->) & Hf).
  (* the horizontal solution is the true point *)
  assert (Hrow : forall m, In m rest -> forall x2 y2, al_place m x2 y2 -> (x2 - x1) * (x + x1) + (y2 - y1) * (y + y1) = 0).
  { intros m Hmr x2 y2 Hp2. 
    assert (Hall : Forall (fun r : RX * RX * RX * RX => let '(a1, a2, a3) := fst r in rval a1 * x + rval a2 * y + rval a3 * z = rval (snd r)) rows).
    { clear - Hf. clearbody rows. induction rows as [|r t IH]; [constructor|]. cbn [map] in Hf. inversion Hf; subst. constructor; [|apply IH; assumption].
      destruct (fst r) as [[? ?] ?]. cbn [rval] in *. assumption. }
    rewrite Forall_forall in Hall. specialize (Hall (sphere_row al_level m1 m) (in_map _ _ _ Hmr)).
    destruct (@al_in m) as (E2 & x2' & y2' & Hp2' & Hx2 & Hy2); [apply Hin; right; exact Hmr|].
    unfold al_place in *. rewrite Hp2 in Hp2'. injection Hp2' as <- <-.
    unfold sphere_row in Hall. rewrite Hq1, Hp2, E1, E2 in Hall. cbn [fst snd rval zx zy zz] in Hall.
    replace ((x2 - x1) * (x + x1) + (y2 - y1) * (y + y1)) with (((x2 - x1) * x + (y2 - y1) * y + (0 - 0) * z) + ((x2 * x1 + y2 * y1) - (x1 * x1 + y1 * y1))) by ring.
    rewrite Hall, Hx1, Hy1. replace ((x2 - x1) * (x2 - x1) + (y2 - y1) * (y2 - y1)) with (x2 * x2 + x1 * x1 + y2 * y2 + y1 * y1 - 2 * (x2 * x1 + y2 * y1)) by ring.
    rewrite Hx1, Hx2, Hy1, Hy2. field. }
  assert (Hcol : forall m x2 y2, In m al_ms -> al_place m x2 y2 -> x2 * (x + x1) + y2 * (y + y1) = x1 * (x + x1) + y1 * (y + y1)).
  { intros m x2 y2 Hi2 Hp2. apply Hin in Hi2. destruct Hi2 as [<-|Hi2].
    - unfold al_place in *. rewrite Hp2 in Hq1. injection Hq1 as <- <-. reflexivity.
    - assert (K := Hrow m Hi2 x2 y2 Hp2). lra. }
  assert (Ka := Hcol (al_radio "a") 3 4 (or_introl eq_refl) eq_refl).
  assert (Kb := Hcol (al_radio "b") 3 (-4) (or_intror (or_introl eq_refl)) eq_refl).
  assert (Kc := Hcol (al_radio "c") (-3) 4 (or_intror (or_intror (or_introl eq_refl))) eq_refl).
  assert (Kd := Hcol (al_radio "d") (-3) (-4) (or_intror (or_intror (or_intror (or_introl eq_refl)))) eq_refl).
  assert (X0 : x + x1 = 0) by lra. assert (Y0 : y + y1 = 0) by lra.
  rewrite Hp1. cbn [zx zy]. rewrite !rx_add, X0, Y0.
  destruct (@al_terms (m1 :: rest)) as (vs & Ev & Lv & Fv); [intros m H; apply Hin, H|]. rewrite Ev. cbn [bind].
  assert (FM : flat_map (fun o => match o with Some v => [v] | None => [] end) (map (fun v => Some (Some v : RX)) vs) = map (fun v => Some v : RX) vs).
  { clear. induction vs as [|m t IH]; [reflexivity|]. cbn [map flat_map app]. f_equal. exact IH. }
  rewrite FM. destruct vs as [|v1 [|v2 [|v3 [|v4 [|]]]]]; cbn [List.length] in Lv, Hlen; try (exfalso; lia).
  exists (rsum [v1; v2; v3; v4]). split.
  - change (map (fun v => Some v : RX) [v1; v2; v3; v4]) with ((Some v1 : RX) :: map (fun v => Some v : RX) [v2; v3; v4]). cbv iota. f_equal. f_equal.
    change ((Some v1 : RX) :: map (fun v => Some v : RX) [v2; v3; v4]) with (map (fun v => Some v : RX) [v1; v2; v3; v4]).
    rewrite fsum_rval by (intros v Hv; apply in_map_iff in Hv; destruct Hv as (m & <- & _); eexists; reflexivity).
    rewrite map_map. reflexivity.
  - inversion Fv as [|? ? F1 Fv2]; subst. inversion Fv2 as [|? ? F2 Fv3]; subst. inversion Fv3 as [|? ? F3 Fv4]; subst. inversion Fv4 as [|? ? F4 _]; subst.
    rewrite !rsum_cons, rsum_nil. lra.
Qed.
(** such a solver exists: the average of the coefficients *)
Definition al_svd (A : list (RX * RX * RX)) (b : list RX) : RX * RX * RX :=
  (Some (rsum (map (fun r => rval (fst (fst r))) A) / 4), Some (rsum (map (fun r => rval (snd (fst r))) A) / 4), Some 0).
Lemma al_solver : solver_for al_svd al_level al_ms.
Proof.
  intros m1 rest Hp rows.
  assert (Hin : forall m, In m (m1 :: rest) -> In m al_ms) by (intros m; apply Permutation_in, Permutation_sym, Hp).
  destruct (@al_in m1) as (E1 & x1 & y1 & Hp1 & Hx1 & Hy1); [apply Hin; left; reflexivity|].
  pose (X := fun m : radio RX => match place_of al_level (r_id m) with Some p => rval (zx p) | None => 0 end).
  pose (Y := fun m : radio RX => match place_of al_level (r_id m) with Some p => rval (zy p) | None => 0 end).
  assert (L : List.length rest = 3%nat) by (apply Permutation_length in Hp; cbn in Hp; lia).
  assert (SX : rsum (map X (m1 :: rest)) = 0).
  { rewrite <- (rsum_perm (Permutation_map X Hp)). unfold X, al_ms. cbn. rewrite !rsum_cons, rsum_nil. lra. }
  assert (SY : rsum (map Y (m1 :: rest)) = 0).
  { rewrite <- (rsum_perm (Permutation_map Y Hp)). unfold Y, al_ms. cbn. rewrite !rsum_cons, rsum_nil. lra. }
  assert (X1 : X m1 = x1) by (unfold X; rewrite Hp1; reflexivity). assert (Y1 : Y m1 = y1) by (unfold Y; rewrite Hp1; reflexivity).
  cbn [map] in SX, SY. rewrite rsum_cons, X1 in SX. rewrite rsum_cons, Y1 in SY.
  assert (RA : forall r, In r rest -> sphere_row al_level m1 r = ((Some (X r - x1), Some (Y r - y1), Some (0 - 0)), Some ((5 * 5 - 5 * 5 + ((X r - x1) * (X r - x1) + (Y r - y1) * (Y r - y1) + (0 - 0) * (0 - 0))) / 2))).
  { intros r Hr. destruct (@al_in r) as (E2 & x2 & y2 & Hp2 & _); [apply Hin; right; exact Hr|]. unfold al_place in *. unfold sphere_row, X, Y. rewrite Hp1, Hp2, E1, E2. reflexivity. }
  assert (AX : rsum (map (fun r => rval (fst (fst r))) (map fst rows)) = rsum (map X rest) - 3 * x1).
  { subst rows. rewrite !map_map. rewrite (map_ext_in _ (fun r => X r - x1)). 2:{ intros r Hr. rewrite (RA r Hr). reflexivity. }
    destruct rest as [|a [|b [|c [|]]]]; try discriminate. cbn [map]. rewrite !rsum_cons, rsum_nil. lra. }
  assert (AY : rsum (map (fun r => rval (snd (fst r))) (map fst rows)) = rsum (map Y rest) - 3 * y1).
  { subst rows. rewrite !map_map. rewrite (map_ext_in _ (fun r => Y r - y1)). 2:{ intros r Hr. rewrite (RA r Hr). reflexivity. }
    destruct rest as [|a [|b [|c [|]]]]; try discriminate. cbn [map]. rewrite !rsum_cons, rsum_nil. lra. }
  unfold al_svd. rewrite AX, AY. unfold solves.
  split; [eexists; reflexivity|]. split; [eexists; reflexivity|]. split; [eexists; reflexivity|]. cbn [rval].
  replace ((rsum (map X rest) - 3 * x1) / 4) with (- x1) by (unfold RX in *; lra). replace ((rsum (map Y rest) - 3 * y1) / 4) with (- y1) by (unfold RX in *; lra).
  subst rows. clear AX AY SX SY L Hp. induction rest as [|r t IH]; [constructor|]. cbn [map]. constructor.
  - rewrite (RA r (or_introl eq_refl)). cbn [fst snd rval].
    destruct (@al_in r) as (E2 & x2 & y2 & Hp2 & Hx2 & Hy2); [apply Hin; right; left; reflexivity|].
    assert (X2 : X r = x2) by (unfold X; rewrite Hp2; reflexivity). assert (Y2 : Y r = y2) by (unfold Y; rewrite Hp2; reflexivity). rewrite X2, Y2.
    replace ((x2 - x1) * (x2 - x1) + (y2 - y1) * (y2 - y1) + (0 - 0) * (0 - 0)) with (x2 * x2 + x1 * x1 + y2 * y2 + y1 * y1 - 2 * (x2 * x1 + y2 * y1)) by ring.
    replace ((x2 - x1) * - x1 + (y2 - y1) * - y1 + (0 - 0) * 0) with (x1 * x1 + y1 * y1 - (x2 * x1 + y2 * y1)) by ring. rewrite Hx1, Hy1, Hx2, Hy2. field.
  - apply IH; [intros m [<-|H]; apply Hin; [left; reflexivity|right; right; exact H]|intros q Hq; apply RA; right; exact Hq].
Qed.
End S.
