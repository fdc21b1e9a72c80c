(** Lemmas for C111: the fit of any power is the least-squares polynomial, and
    short windows are interpolated. *)
From Coq Require Import Reals Lra Lia.
From Verif Require Import Base NumReal LibR Smooth Spec_Smooth Spec_Poly Pf_Smooth Pf_Lin.
Set Implicit Arguments.
Local Open Scope R_scope.

(** ** polynomials *)
Lemma peval_cons c cs x : peval (c :: cs) x = c + x * peval cs x.
Proof. reflexivity. Qed.
Lemma sumn_shift n f : sumn (S n) f = f 0%nat + sumn n (fun i => f (S i)).
Proof. unfold sumn. cbn [seq map]. rewrite rsum_cons, <- seq_shift, map_map. reflexivity. Qed.
Lemma peval_sum cs x : peval cs x = sumn (List.length cs) (fun i => nth i cs 0 * x ^ i).
Proof.
  induction cs as [|c t IH]; [reflexivity|]. cbn [List.length]. rewrite sumn_shift, peval_cons, IH. cbn [nth pow].
  rewrite <- sumn_scale. f_equal; [ring|]. apply sumn_ext. intros; ring.
Qed.
(** the polynomial of n given coefficients *)
Definition coefs (n : nat) (a : nat -> R) : list R := map a (seq 0 n).
Lemma coefs_len n a : List.length (coefs n a) = n.
Proof. unfold coefs. rewrite map_length, seq_length. reflexivity. Qed.
Lemma coefs_nth n a i : (i < n)%nat -> nth i (coefs n a) 0 = a i.
Proof. intros H. unfold coefs. rewrite (nth_indep _ 0 (a 0%nat)) by (rewrite map_length, seq_length; exact H).
  rewrite map_nth, seq_nth by exact H. reflexivity. Qed.
Lemma peval_coefs n a x : peval (coefs n a) x = sumn n (fun i => a i * x ^ i).
Proof. rewrite peval_sum, coefs_len. apply sumn_ext. intros i Hi. rewrite coefs_nth by exact Hi. reflexivity. Qed.
Lemma coefs_of cs : coefs (List.length cs) (fun i => nth i cs 0) = cs.
Proof.
  apply nth_ext with (d := 0) (d' := 0); [apply coefs_len|]. intros i Hi. rewrite coefs_len in Hi. apply coefs_nth, Hi.
Qed.
Definition zeros (cs : list R) : Prop := forall i, nth i cs 0 = 0.
Lemma zeros_cons c cs : c = 0 -> zeros cs -> zeros (c :: cs).
Proof. intros -> H [|i]; [reflexivity|apply H]. Qed.
Lemma peval_zeros cs x : zeros cs -> peval cs x = 0.
Proof. intros H. rewrite peval_sum. apply sumn_zero. intros i _. rewrite (H i). ring. Qed.

(** functions given by a polynomial with n coefficients *)
Definition is_poly (n : nat) (f : R -> R) : Prop := exists cs, List.length cs = n /\ forall x, f x = peval cs x.
Lemma poly_lin n a b f g : is_poly n f -> is_poly n g -> is_poly n (fun x => a * f x + b * g x).
Proof.
  intros (cs & Lc & Hc) (ds & Ld & Hd). exists (coefs n (fun i => a * nth i cs 0 + b * nth i ds 0)). split; [apply coefs_len|].
  intros x. rewrite Hc, Hd, peval_coefs, !peval_sum, Lc, Ld, <- sumn_lin. apply sumn_ext. intros; ring.
Qed.
Lemma poly_zero n : is_poly n (fun _ => 0).
Proof. exists (coefs n (fun _ => 0)). split; [apply coefs_len|]. intros x. rewrite peval_coefs. symmetry. apply sumn_zero. intros; ring. Qed.
Lemma poly_const c : is_poly 1 (fun _ => c).
Proof. exists [c]. split; [reflexivity|]. intros x. rewrite peval_cons. cbn. ring. Qed.
Lemma poly_shift n f : is_poly n f -> is_poly (S n) (fun x => x * f x).
Proof. intros (cs & L & H). exists (0 :: cs). split; [cbn; lia|]. intros x. rewrite peval_cons, H. ring. Qed.
Lemma poly_pad n f : is_poly n f -> is_poly (S n) f.
Proof.
  intros (cs & L & H). exists (cs ++ [0]). split; [rewrite app_length, L; cbn; lia|]. intros x. rewrite H. clear.
  induction cs as [|c t IH]; [cbn; ring|]. cbn [app]. rewrite !peval_cons, IH. reflexivity.
Qed.
Lemma poly_factor n a b f : is_poly n f -> is_poly (S n) (fun x => (a * x + b) * f x).
Proof.
  intros H. destruct (poly_lin a b (poly_shift H) (poly_pad H)) as (cs & L & E). exists cs. split; [exact L|]. intros x. rewrite <- E. ring.
Qed.
Lemma poly_ext n f g : (forall x, f x = g x) -> is_poly n f -> is_poly n g.
Proof. intros H (cs & L & E). exists cs. split; [exact L|]. intros x. rewrite <- H. apply E. Qed.

(** division by x - a *)
Lemma divide cs a : exists q, List.length q = pred (List.length cs) /\ forall x, peval cs x - peval cs a = (x - a) * peval q x.
Proof.
  induction cs as [|c t (q & L & H)]; [exists []; split; [reflexivity|intros; cbn; ring]|].
  assert (P : is_poly (List.length t) (fun x => 1 * peval t x + a * peval q x)).
  { apply poly_lin; [exists t; auto|]. destruct t as [|c' t']; [exists []; cbn in L; split; [reflexivity|]; destruct q; [reflexivity|discriminate]|].
    cbn [List.length] in *. apply poly_pad. exists q. auto. }
  destruct P as (q' & L' & E). exists q'. split; [exact L'|]. intros x. rewrite <- E, !peval_cons.
  replace (c + x * peval t x - (c + a * peval t a)) with ((x - a) * peval t x + a * (peval t x - peval t a)) by ring.
  rewrite H. ring.
Qed.
Lemma roots : forall n cs ts, List.length cs = n -> NoDup ts -> List.length ts = n -> (forall t, In t ts -> peval cs t = 0) -> zeros cs.
Proof.
  induction n as [|n IH]; intros cs ts Lc Hn Lt H.
  - destruct cs; [|discriminate]. intros [|i]; reflexivity.
  - destruct cs as [|c cs]; [discriminate|]. destruct ts as [|a ts]; [discriminate|]. injection Lc as Lc. injection Lt as Lt.
    destruct (divide (c :: cs) a) as (q & Lq & Hq). cbn [List.length pred] in Lq.
    inversion Hn as [|? ? Ha Hn' Eq1]; subst.
    assert (Z : zeros q).
    { apply (IH q ts); [congruence|assumption|congruence|]. intros t Ht. specialize (Hq t). rewrite (H t), (H a) in Hq by (auto using in_eq, in_cons).
      assert (t - a <> 0) by (intros E; apply Ha; replace a with t by lra; exact Ht).
      apply Rmult_eq_reg_l with (t - a); [|assumption]. lra. }
    assert (F0 : forall x, peval (c :: cs) x = 0).
    { intros x. specialize (Hq x). rewrite (peval_zeros _ Z), (H a) in Hq by apply in_eq. lra. }
    apply zeros_cons.
    + specialize (F0 0). rewrite peval_cons in F0. lra.
    + assert (c = 0) by (specialize (F0 0); rewrite peval_cons in F0; lra). subst c.
      apply (IH cs (map (fun i => INR (S i)) (seq 0 (List.length cs)))); auto.
      * apply FinFun.Injective_map_NoDup; [|apply seq_NoDup]. intros i j E. apply INR_eq in E. lia.
      * rewrite map_length, seq_length. reflexivity.
      * intros t Ht. apply in_map_iff in Ht. destruct Ht as (i & <- & _). specialize (F0 (INR (S i))). rewrite peval_cons in F0.
        assert (INR (S i) <> 0) by (apply not_0_INR; lia). apply Rmult_eq_reg_l with (INR (S i)); [|assumption]. lra.
Qed.
Lemma poly_agree n f g ts : is_poly n f -> is_poly n g -> NoDup ts -> List.length ts = n -> (forall t, In t ts -> f t = g t) -> forall x, f x = g x.
Proof.
  intros Hf Hg Hn Lt H x. destruct (poly_lin 1 (-1) Hf Hg) as (cs & L & E). assert (Z : zeros cs).
  { apply (@roots n cs ts L Hn Lt). intros t Ht. rewrite <- E, (H t Ht). ring. }
  specialize (E x). cbv beta in E. rewrite (peval_zeros _ Z) in E. lra.
Qed.

(** ** least squares *)
Section Fit.
Variable ps : list (R * R).
Variable n : nat.
Let A (i j : nat) : R := rsum (map (fun p => fst p ^ (i + j)) ps).
Let b (i : nat) : R := rsum (map (fun p => fst p ^ i * snd p) ps).
Lemma swap_list {T : Type} (f : nat -> T -> R) l m : sumn m (fun i => rsum (map (f i) l)) = rsum (map (fun p => sumn m (fun i => f i p)) l).
Proof.
  induction l as [|p t IH]; cbn [map]; [rewrite rsum_nil; apply sumn_zero; intros; apply rsum_nil|].
  rewrite rsum_cons, <- IH, <- sumn_add. apply sumn_ext. intros; apply rsum_cons.
Qed.
Lemma rsum_mul {T : Type} k (f : T -> R) l : k * rsum (map f l) = rsum (map (fun x => k * f x) l).
Proof. induction l as [|p t IH]; cbn [map]; rewrite ?rsum_nil, ?rsum_cons; [ring|]. rewrite <- IH. ring. Qed.
Lemma form_square y : sumn n (fun i => sumn n (fun j => y i * A i j * y j)) =
  rsum (map (fun p => peval (coefs n y) (fst p) * peval (coefs n y) (fst p)) ps).
Proof.
  transitivity (rsum (map (fun p => sumn n (fun i => sumn n (fun j => y i * fst p ^ (i + j) * y j))) ps)).
  - rewrite <- swap_list. apply sumn_ext. intros i _. rewrite <- swap_list. apply sumn_ext. intros j _.
    unfold A. rewrite Rmult_comm, <- Rmult_assoc, rsum_mul. f_equal. apply map_ext. intros p. ring.
  - apply rsum_ext. intros p. rewrite peval_coefs, <- sumn_scale. rewrite sumn_swap.
    apply sumn_ext. intros j _. rewrite Rmult_comm, <- sumn_scale. apply sumn_ext. intros i _. rewrite pow_add. ring.
Qed.
Lemma gram_definite : distinct_times n ps -> definite n A.
Proof.
  intros (ts & Hn & Lt & Hi) y (i & Hi2 & Hy) Z. rewrite form_square in Z.
  assert (Zs : zeros (coefs n y)).
  { apply (@roots n _ ts (coefs_len n y) Hn Lt). intros t Ht. destruct (Req_dec (peval (coefs n y) t) 0) as [E|E]; [exact E|]. exfalso.
    apply Hi in Ht. apply in_map_iff in Ht. destruct Ht as (p & <- & Hp).
    assert (X := @sum_sq_pos _ (fun p => peval (coefs n y) (fst p)) ps p Hp E). lra. }
  apply Hy. rewrite <- (coefs_nth y Hi2). apply Zs.
Qed.
Lemma residual_orth a d : solves n A b a ->
  rsum (map (fun p => (snd p - peval (coefs n a) (fst p)) * peval (coefs n d) (fst p)) ps) = 0.
Proof.
  intros H. transitivity (sumn n (fun i => d i * (b i - sumn n (fun j => A i j * a j)))).
  - transitivity (rsum (map (fun p => sumn n (fun i => d i * (fst p ^ i * snd p - sumn n (fun j => fst p ^ (i + j) * a j)))) ps)).
    + apply rsum_ext. intros p. rewrite !peval_coefs. rewrite Rmult_comm, Rmult_comm, <- sumn_scale. apply sumn_ext. intros i _.
      rewrite Rmult_minus_distr_r, Rmult_minus_distr_l. f_equal; [ring|].
      replace (sumn n (fun i0 => a i0 * fst p ^ i0) * (d i * fst p ^ i)) with (d i * (fst p ^ i * sumn n (fun i0 => a i0 * fst p ^ i0))) by ring.
      f_equal. rewrite <- sumn_scale. apply sumn_ext. intros j _. rewrite pow_add. ring.
    + rewrite <- swap_list. apply sumn_ext. intros i _. rewrite <- rsum_mul. f_equal.
      transitivity (b i + -1 * sumn n (fun j => A i j * a j)); [|ring].
      replace (sumn n (fun j => A i j * a j)) with (rsum (map (fun p => sumn n (fun j => fst p ^ (i + j) * a j)) ps)).
      * unfold b. rewrite rsum_mul. clear. induction ps as [|p t IH]; cbn [map]; [rewrite !rsum_nil; ring|]. rewrite !rsum_cons, IH. ring.
      * rewrite <- swap_list. apply sumn_ext. intros j _. unfold A. rewrite Rmult_comm, rsum_mul. apply rsum_ext. intros; ring.
  - apply sumn_zero. intros i Hi. rewrite (H i Hi). ring.
Qed.
Lemma sse_split a d : solves n A b a ->
  sse (coefs n d) ps = sse (coefs n a) ps + rsum (map (fun p => peval (coefs n (fun i => d i - a i)) (fst p) * peval (coefs n (fun i => d i - a i)) (fst p)) ps).
Proof.
  intros H. assert (O := residual_orth (fun i => d i - a i) H). unfold sse.
  assert (E : forall x, peval (coefs n d) x = peval (coefs n a) x + peval (coefs n (fun i => d i - a i)) x).
  { intros x. rewrite !peval_coefs, <- sumn_add. apply sumn_ext. intros; ring. }
  assert (G : forall l, rsum (map (fun p => (snd p - peval (coefs n d) (fst p)) * (snd p - peval (coefs n d) (fst p))) l) =
    rsum (map (fun p => (snd p - peval (coefs n a) (fst p)) * (snd p - peval (coefs n a) (fst p))) l)
    - 2 * rsum (map (fun p => (snd p - peval (coefs n a) (fst p)) * peval (coefs n (fun i => d i - a i)) (fst p)) l)
    + rsum (map (fun p => peval (coefs n (fun i => d i - a i)) (fst p) * peval (coefs n (fun i => d i - a i)) (fst p)) l)).
  { induction l as [|p t IH]; cbn [map]; rewrite ?rsum_nil, ?rsum_cons; [ring|]. rewrite IH, (E (fst p)). ring. }
  rewrite G, O. ring.
Qed.
Lemma ls_fit : distinct_times n ps -> exists a : nat -> R,
  (forall i, (i < n)%nat -> solve_linear n (pf_matrix n (map (fun p => Some (fst p)) ps) (map (fun p => Some (snd p)) ps)) i = (Some (a i) : RX)) /\
  forall cs, List.length cs = n -> sse (coefs n a) ps <= sse cs ps /\ (sse cs ps <= sse (coefs n a) ps -> cs = coefs n a).
Proof.
  intros HD. assert (Hdef := gram_definite HD). destruct (@solver n A b Hdef) as (a & Ha & Hs). exists a. split.
  - intros i Hi. rewrite <- Ha by exact Hi. apply solve_linear_ext; [|exact Hi]. intros r c Hr Hc. unfold pf_matrix, extended.
    rewrite pf_b_real, pf_sub_real. destruct (Nat.eqb c n); reflexivity.
  - intros cs L. assert (Ecs : coefs n (fun i => nth i cs 0) = cs) by (rewrite <- L; apply coefs_of). set (d := fun i => nth i cs 0) in *.
    assert (S := sse_split d Hs). rewrite Ecs in S. rewrite <- form_square in S.
    assert (P : 0 <= sumn n (fun i => sumn n (fun j => (d i - a i) * A i j * (d j - a j)))).
    { rewrite (form_square (fun i => d i - a i)). apply rsum_nonneg. intros z Hz. apply in_map_iff in Hz. destruct Hz as (w & <- & _). apply Rle_0_sqr. }
    cbv beta in S. split; [lra|]. intros Hle. rewrite <- Ecs. apply map_ext_in. intros i Hi. apply in_seq in Hi.
    destruct (Req_dec (d i) (a i)) as [E|E]; [exact E|]. exfalso.
    apply (Hdef (fun i => d i - a i)); [exists i; split; [lia|lra]|]. cbv beta. lra.
Qed.
End Fit.

(** the coefficients of a reachable fit belong to its window *)
Lemma reach_coeff ord c f : pf_reach ord c f -> exists ps, window_of f ps /\
  ((pc_power c < List.length ps)%nat -> pf_coeff f = ls_coeff c (pf_x f) (pf_y f)).
Proof.
  induction 1 as [|f x y f' R IH Ho H|f R IH|f t R IH].
  - exists []. split; [split; reflexivity|]. cbn. lia.
  - destruct IH as (ps & (Wx & Wy) & Hco). apply pf_add_cases in H. destruct H as [(xs & ys & E & Ex & Ey & Ec)|(Hne & E1 & E2 & E3 & _)].
    + apply remove_old_suffix in E; [|rewrite !app_length, Wx, Wy, !map_length; reflexivity].
      destruct E as (m & -> & ->).
      exists (skipn m (ps ++ [(x, y)])). split.
      * split; [rewrite Ex, Wx|rewrite Ey, Wy]; rewrite <- skipn_map, map_app; reflexivity.
      * rewrite Ex, Ey in *. intros Hl. apply Ec. rewrite skipn_length, app_length in *. rewrite Wy, map_length. exact Hl.
    + exists ps. split; [split; congruence|]. rewrite E1, E2, E3. exact Hco.
  - exists []. split; [split; reflexivity|]. cbn. lia.
  - destruct IH as (ps & (Wx & Wy) & Hco). exists ps. unfold pf_predict. destruct (Nat.eqb _ 0); cbn; split; auto; split; auto.
Qed.
Lemma distinct_len n ps : distinct_times n ps -> (n <= List.length ps)%nat.
Proof. intros (ts & Hn & <- & Hi). rewrite <- (map_length fst ps). apply NoDup_incl_length; assumption. Qed.
Theorem fit_any ord c f ps : pf_reach ord c f -> window_of f ps -> distinct_times (S (pc_power c)) ps ->
  exists cs, pf_coeff f = map (fun v => (Some v : RX)) cs /\ List.length cs = S (pc_power c) /\
    forall ds, List.length ds = S (pc_power c) -> sse cs ps <= sse ds ps /\ (sse ds ps <= sse cs ps -> ds = cs).
Proof.
  intros R (Wx & Wy) HD. destruct (reach_coeff R) as (ps' & (Wx' & Wy') & Hco).
  assert (Hl : List.length ps = List.length ps') by (rewrite Wx' in Wx; apply (f_equal (@List.length _)) in Wx; rewrite !map_length in Wx; auto).
  assert (Hd := distinct_len HD). rewrite Hco by lia. rewrite Wx, Wy. destruct (ls_fit HD) as (a & Ha & Hb).
  exists (coefs (S (pc_power c)) a). split; [|split; [apply coefs_len|exact Hb]].
  unfold ls_coeff, coefs. rewrite map_map. apply map_ext_in. intros i Hi. apply in_seq in Hi. apply Ha. lia.
Qed.
Theorem fit_exact ord c f ps cs : pf_reach ord c f -> window_of f ps -> distinct_times (S (pc_power c)) ps ->
  List.length cs = S (pc_power c) -> Forall (fun p => snd p = peval cs (fst p)) ps -> pf_coeff f = map (fun v => (Some v : RX)) cs.
Proof.
  intros R W HD L HF. destruct (fit_any R W HD) as (ds & E & Ld & Hb). rewrite E. f_equal. symmetry. apply (Hb cs L).
  assert (Z : sse cs ps = 0).
  { unfold sse. clear - HF. induction HF as [|p t Hp HF IH]; cbn [map]; [apply rsum_nil|]. rewrite rsum_cons, IH, Hp. ring. }
  rewrite Z. unfold sse. apply rsum_nonneg. intros z Hz. apply in_map_iff in Hz. destruct Hz as (w & <- & _). apply Rle_0_sqr.
Qed.

(** ** predictions *)
Lemma ls_value (cs : list R) (c : pfconf RX) t sh : List.length cs = S (pc_power c) -> pc_shift c = Some sh ->
  ls_solution c (map (fun v => (Some v : RX)) cs) (Some t : RX) = Some (peval cs (t - sh)).
Proof.
  intros L Hs. unfold ls_solution. rewrite Hs, rx_sub, peval_sum, L. unfold sumn.
  assert (G : forall l s, (forall i, In i l -> (i < List.length cs)%nat) ->
    fold_left (fun out i => out +! nth i (map (fun v => (Some v : RX)) cs) f0 *! fpowi (Some (t - sh) : RX) i) l (Some s : RX) =
    Some (s + rsum (map (fun i => nth i cs 0 * (t - sh) ^ i) l))).
  { induction l as [|i u IH]; intros s Hi; cbn [fold_left map]; [rewrite rsum_nil; f_equal; lra|].
    assert (En : nth i (map (fun v => (Some v : RX)) cs) f0 = Some (nth i cs 0)).
    { rewrite (nth_indep _ (f0 : RX) ((fun v => (Some v : RX)) 0)) by (rewrite map_length; apply Hi; left; reflexivity).
      apply (map_nth (fun v => (Some v : RX))). }
    rewrite En, rx_powi, rx_mul, rx_add, IH by (intros; apply Hi; right; assumption). rewrite rsum_cons. f_equal. lra. }
  rewrite rx_f0, G by (intros i Hi; apply in_seq in Hi; lia). f_equal. lra.
Qed.
Theorem predict_any ord c f ps t w sh l cs : pf_reach ord c f -> window_of f ps -> (pc_power c < List.length ps)%nat -> (2 <= List.length ps)%nat ->
  pf_coeff f = map (fun v => (Some v : RX)) cs -> List.length cs = S (pc_power c) ->
  pf_last f = Some l -> pc_weight c = Some w -> pc_shift c = Some sh ->
  snd (pf_predict c f (Some t : RX)) = Some (w * peval cs (t - sh) + (1 - w) * l) /\
  pf_last (fst (pf_predict c f (Some t : RX))) = Some (w * peval cs (t - sh) + (1 - w) * l).
Proof.
  intros _ (Wx & Wy) H1 H2 Hco L La Hw Hs. unfold pf_predict. rewrite Wy, map_length, La, Hw.
  destruct (Nat.eqb_spec (List.length ps) 0); [lia|]. destruct (Nat.eqb_spec (List.length ps) 1); [lia|].
  destruct (Nat.ltb_spec (List.length ps) (S (pc_power c))); [lia|]. cbn [orb fst snd pf_last].
  rewrite Hco, (@ls_value cs c t sh L Hs), rx_f1, rx_sub, !rx_mul, rx_add. split; f_equal; ring.
Qed.

(** ** interpolation *)
Definition rprod (l : list R) : R := fold_right Rmult 1 l.
Lemma rprod_cons x l : rprod (x :: l) = x * rprod l. Proof. reflexivity. Qed.
Lemma rprod_zero l : In 0 l -> rprod l = 0.
Proof. induction l as [|x t IH]; [intros []|]. rewrite rprod_cons. intros [->|H]; [ring|]. rewrite (IH H). ring. Qed.
Lemma rprod_one l : (forall x, In x l -> x = 1) -> rprod l = 1.
Proof. induction l as [|x t IH]; intros H; [reflexivity|]. rewrite rprod_cons, (H x), IH by (intros; try apply H; auto using in_eq, in_cons). ring. Qed.
Section Interp.
Variable ps : list (R * R).
Hypothesis ND : NoDup (map fst ps).
Let X (i : nat) : R := fst (nth i ps (0, 0)).
Let Yv (i : nat) : R := snd (nth i ps (0, 0)).
Let m := List.length ps.
Lemma X_inj i j : (i < m)%nat -> (j < m)%nat -> X i = X j -> i = j.
Proof.
  intros Hi Hj E. apply (proj1 (NoDup_nth (map fst ps) 0) ND); [rewrite map_length; exact Hi|rewrite map_length; exact Hj|].
  change 0 with (fst (0, 0)). rewrite !map_nth. exact E.
Qed.
Definition others (i : nat) : list nat := filter (fun j => negb (Nat.eqb i j)) (seq 0 m).
Definition basis (i : nat) (t : R) : R := rprod (map (fun j => (t - X j) / (X i - X j)) (others i)).
Definition lag (t : R) : R := sumn m (fun i => Yv i * basis i t).
Lemma nx i : (i < m)%nat -> nth i (map (fun p => Some (fst p) : RX) ps) f0 = Some (X i).
Proof. intros H. rewrite (nth_indep _ (f0 : RX) ((fun p => Some (fst p) : RX) (0, 0))) by (rewrite map_length; exact H). rewrite (map_nth (fun p => Some (fst p) : RX)). reflexivity. Qed.
Lemma ny i : (i < m)%nat -> nth i (map (fun p => Some (snd p) : RX) ps) f0 = Some (Yv i).
Proof. intros H. rewrite (nth_indep _ (f0 : RX) ((fun p => Some (snd p) : RX) (0, 0))) by (rewrite map_length; exact H). rewrite (map_nth (fun p => Some (snd p) : RX)). reflexivity. Qed.
Lemma lagrange_value (c : pfconf RX) t sh : pc_shift c = Some sh ->
  lagrange c (map (fun p => Some (fst p) : RX) ps) (map (fun p => Some (snd p) : RX) ps) (Some t : RX) = Some (lag (t - sh)).
Proof.
  intros Hs. unfold lagrange. rewrite Hs, rx_sub, map_length. fold m. unfold lag, sumn.
  assert (G : forall l s, (forall i, In i l -> (i < m)%nat) ->
    fold_left (fun (out : RX) i => out +! nth i (map (fun p => Some (snd p) : RX) ps) f0 *!
      fold_left (fun (q : RX) j => if negb (Nat.eqb i j) then q *! (((Some (t - sh) : RX) -! nth j (map (fun p => Some (fst p) : RX) ps) f0) /!
        (nth i (map (fun p => Some (fst p) : RX) ps) f0 -! nth j (map (fun p => Some (fst p) : RX) ps) f0)) else q) (seq 0 m) f1) l (Some s : RX) =
    Some (s + rsum (map (fun i => Yv i * basis i (t - sh)) l))).
  { induction l as [|i u IH]; intros s Hl; cbn [fold_left map]; [rewrite rsum_nil; f_equal; lra|].
    assert (Hi : (i < m)%nat) by (apply Hl; left; reflexivity).
    assert (B : forall l q, (forall j, In j l -> (j < m)%nat) ->
      fold_left (fun (q : RX) j => if negb (Nat.eqb i j) then q *! (((Some (t - sh) : RX) -! nth j (map (fun p => Some (fst p) : RX) ps) f0) /!
        ((Some (X i) : RX) -! nth j (map (fun p => Some (fst p) : RX) ps) f0)) else q) l (Some q : RX) =
      Some (q * rprod (map (fun j => (t - sh - X j) / (X i - X j)) (filter (fun j => negb (Nat.eqb i j)) l)))).
    { induction l as [|j v IHv]; intros q Hj; cbn [fold_left filter map]; [f_equal; cbn; ring|].
      destruct (Nat.eqb_spec i j) as [->|Hn]; cbn [negb map]; [apply IHv; intros; apply Hj; right; assumption|].
      assert (Hj' : (j < m)%nat) by (apply Hj; left; reflexivity). rewrite (nx Hj').
      assert (X i - X j <> 0) by (intros E; apply Hn, X_inj; auto; lra).
      rewrite !rx_sub, rx_div, rx_mul by assumption. etransitivity; [apply IHv; intros; apply Hj; right; assumption|].
      rewrite rprod_cons. f_equal. ring. }
    rewrite (nx Hi). rewrite rx_f1, B by (intros j Hj; apply in_seq in Hj; lia). rewrite ny by exact Hi. rewrite rx_mul, rx_add, IH by (intros; apply Hl; right; assumption).
    rewrite rsum_cons. f_equal. unfold basis, others. ring. }
  rewrite rx_f0, G by (intros i Hi; apply in_seq in Hi; lia). f_equal. lra.
Qed.
Lemma basis_self i : (i < m)%nat -> basis i (X i) = 1.
Proof.
  intros Hi. apply rprod_one. intros x Hx. apply in_map_iff in Hx. destruct Hx as (j & <- & Hj). apply filter_In in Hj.
  destruct Hj as [Hj Hn]. apply in_seq in Hj. destruct (Nat.eqb_spec i j); [discriminate|].
  assert (X i - X j <> 0) by (intros E; apply n, X_inj; [exact Hi|unfold m in *; lia|lra]). field. assumption.
Qed.
Lemma basis_other i k : (i < m)%nat -> (k < m)%nat -> i <> k -> basis i (X k) = 0.
Proof.
  intros Hi Hk Hn. apply rprod_zero. apply in_map_iff. exists k. split; [unfold Rdiv; ring|]. apply filter_In. split; [apply in_seq; lia|].
  destruct (Nat.eqb_spec i k); [contradiction|reflexivity].
Qed.
Lemma lag_at k : (k < m)%nat -> lag (X k) = Yv k.
Proof.
  intros Hk. unfold lag. rewrite (@sumn_one m k _ Hk); [rewrite basis_self by exact Hk; ring|].
  intros i Hi Hn. rewrite basis_other by assumption. ring.
Qed.
Lemma prod_poly (i : nat) : forall l, (forall j, In j l -> X i - X j <> 0) -> is_poly (S (List.length l)) (fun t => rprod (map (fun j => (t - X j) / (X i - X j)) l)).
Proof.
  induction l as [|j u IH]; intros H.
  - apply (poly_ext (f := fun _ => 1)); [reflexivity|]. apply poly_const.
  - cbn [List.length]. apply (poly_ext (f := fun t => (/ (X i - X j) * t + - X j / (X i - X j)) * rprod (map (fun j => (t - X j) / (X i - X j)) u))).
    + intros t. cbn [map]. rewrite rprod_cons. f_equal. field. apply H. left. reflexivity.
    + apply poly_factor, IH. intros; apply H; right; assumption.
Qed.
Lemma others_len i : (i < m)%nat -> S (List.length (others i)) = m.
Proof.
  intros Hi. unfold others. rewrite <- (seq_length m 0) at 2.
  assert (G : forall l, NoDup l -> In i l -> S (List.length (filter (fun j => negb (Nat.eqb i j)) l)) = List.length l).
  { assert (G0 : forall l, ~ In i l -> filter (fun j => negb (Nat.eqb i j)) l = l).
    { induction l as [|j u IHu]; intros Hn; [reflexivity|]. cbn [filter]. destruct (Nat.eqb_spec i j) as [->|]; [exfalso; apply Hn, in_eq|].
      cbn [negb]. f_equal. apply IHu. intros H. apply Hn. right. exact H. }
    induction l as [|j u IHu]; intros Hn H; [destruct H|]. inversion Hn; subst. cbn [filter].
    destruct (Nat.eqb_spec i j) as [->|N1]; cbn [negb List.length]; [rewrite G0 by assumption; reflexivity|].
    rewrite IHu; auto. destruct H; [congruence|assumption]. }
  apply G; [apply seq_NoDup|apply in_seq; lia].
Qed.
Lemma lag_poly : is_poly m lag.
Proof.
  unfold lag, sumn. assert (G : forall l, (forall i, In i l -> (i < m)%nat) -> is_poly m (fun t => rsum (map (fun i => Yv i * basis i t) l))).
  { induction l as [|i u IH]; intros H; [apply (poly_ext (f := fun _ => 0)); [reflexivity|apply poly_zero]|].
    apply (poly_ext (f := fun t => Yv i * basis i t + 1 * rsum (map (fun i => Yv i * basis i t) u))); [intros; cbn [map]; rewrite rsum_cons; ring|].
    assert (Hi : (i < m)%nat) by (apply H; left; reflexivity).
    apply poly_lin; [|apply IH; intros; apply H; right; assumption]. rewrite <- (others_len Hi) at 1. apply prod_poly.
    intros j Hj. apply filter_In in Hj. destruct Hj as [Hj Hn]. apply in_seq in Hj. intros E. destruct (Nat.eqb_spec i j) as [|N1]; [discriminate|].
    apply N1, X_inj; [exact Hi|unfold m in *; lia|lra]. }
  apply G. intros i Hi. apply in_seq in Hi. lia.
Qed.
Lemma lag_through p : In p ps -> lag (fst p) = snd p.
Proof. intros H. destruct (In_nth _ _ (0, 0) H) as (k & Hk & <-). apply (lag_at Hk). Qed.
Theorem interpolant (c : pfconf RX) f sh : window_of f ps -> (1 <= m)%nat -> (m = 1 \/ m <= pc_power c)%nat -> pc_shift c = Some sh ->
  exists cs, List.length cs = m /\ (forall p, In p ps -> peval cs (fst p) = snd p) /\
    (forall ds, List.length ds = m -> (forall p, In p ps -> peval ds (fst p) = snd p) -> forall x, peval ds x = peval cs x) /\
    forall t, snd (pf_predict c f (Some t : RX)) = Some (peval cs (t - sh)).
Proof.
  intros (Wx & Wy) H1 H2 Hs. destruct lag_poly as (cs & L & E). exists cs. split; [exact L|]. split; [|split].
  - intros p Hp. rewrite <- E. apply lag_through, Hp.
  - intros ds Ld Hd. apply (@poly_agree m (peval ds) (peval cs) (map fst ps)); [exists ds; auto|exists cs; auto|exact ND|apply map_length|].
    intros t Ht. apply in_map_iff in Ht. destruct Ht as (p & <- & Hp). rewrite (Hd p Hp), <- E. symmetry. apply lag_through, Hp.
  - intros t. unfold pf_predict. rewrite Wy, Wx, map_length. fold m. destruct (Nat.eqb_spec m 0); [lia|].
    assert (B : (Nat.eqb m 1 || Nat.ltb m (S (pc_power c)))%bool = true).
    { destruct H2 as [->|H2]; [reflexivity|]. apply orb_true_iff. right. apply Nat.ltb_lt. lia. }
    rewrite B. cbn [snd]. rewrite <- E. exact (lagrange_value c t Hs).
Qed.
End Interp.
