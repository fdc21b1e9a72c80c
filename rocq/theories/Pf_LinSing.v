(** Lemmas for C110 and C111: singular semidefinite systems have no numeric
    answer, and what that does to the fit. *)
From Coq Require Import Reals Lra Lia.
From Verif Require Import Base NumReal LibR Smooth Spec_Smooth Spec_Poly Pf_Smooth Pf_Lin Pf_Poly.
Set Implicit Arguments.
Local Open Scope R_scope.

(** ** operations on not-a-number *)
Lemma none_mul_l (x : RX) : fmul (None : RX) x = None. Proof. reflexivity. Qed.
Lemma none_mul_r (x : RX) : fmul x (None : RX) = None. Proof. destruct x; reflexivity. Qed.
Lemma none_add_l (x : RX) : fadd (None : RX) x = None. Proof. reflexivity. Qed.
Lemma none_add_r (x : RX) : fadd x (None : RX) = None. Proof. destruct x; reflexivity. Qed.
Lemma none_sub_l (x : RX) : fsub (None : RX) x = None. Proof. reflexivity. Qed.
Lemma none_sub_r (x : RX) : fsub x (None : RX) = None. Proof. destruct x; reflexivity. Qed.
Lemma none_div_l (x : RX) : fdiv (None : RX) x = None. Proof. reflexivity. Qed.
Lemma none_div_r (x : RX) : fdiv x (None : RX) = None. Proof. destruct x; reflexivity. Qed.
Lemma none_div_0 (x : RX) : fdiv x (Some 0 : RX) = None.
Proof. destruct x as [x|]; [|reflexivity]. cbn. unfold Reqb. destruct (Req_EM_T 0 0); [reflexivity|congruence]. Qed.
Lemma none_sqrt : fsqrt (None : RX) = None. Proof. reflexivity. Qed.

(** ** broken rows *)
Definition dead (n k j : nat) (E : nat -> nat -> RX) : Prop :=
  forall r c, (k <= r < j)%nat -> (k <= c <= n)%nat -> E r c = None.
Lemma rot_none n k j (E : nat -> nat -> RX) : E k k = None ->
  forall r c, (k <= c <= n)%nat -> (r = j \/ r = k \/ E r c = None) -> rotate n k j E r c = None.
Proof.
  intros H r c Hc Hr. unfold rotate. rewrite H, none_mul_l, none_add_l, none_sqrt, !none_div_r.
  destruct (Nat.leb_spec k c); [|lia]. destruct (Nat.leb_spec c n); [|lia]. cbn [andb].
  destruct (Nat.eqb_spec r j); [rewrite !none_mul_l; reflexivity|].
  destruct (Nat.eqb_spec r k); [rewrite !none_mul_l; reflexivity|]. destruct Hr as [|[|]]; congruence.
Qed.
Lemma rot_dead n k j E : (k < j)%nat -> (k < n)%nat -> dead n k j E -> dead n k (S j) (rotate n k j E).
Proof.
  intros Hj Hn H r c Hr Hc. apply rot_none; [apply H; lia|exact Hc|].
  destruct (Nat.eq_dec r j); [auto|]. right; right. apply H; lia.
Qed.
Lemma rot_first n k E : (S k < n)%nat -> E k k = (Some 0 : RX) -> E (S k) k = (Some 0 : RX) -> dead n k (S (S k)) (rotate n k (S k) E).
Proof.
  intros Hn H1 H2 r c Hr Hc. unfold rotate. rewrite H1, H2, rx_mul, rx_add. rewrite rx_sqrt by lra.
  replace (0 * 0 + 0 * 0) with 0 by ring. rewrite sqrt_0, none_div_0.
  destruct (Nat.leb_spec k c); [|lia]. destruct (Nat.leb_spec c n); [|lia]. cbn [andb].
  destruct (Nat.eqb_spec r (S k)); [rewrite !none_mul_l; reflexivity|].
  destruct (Nat.eqb_spec r k); [rewrite !none_mul_l; reflexivity|lia].
Qed.
Lemma dead_rows n k : (k < n)%nat -> forall m j E, (k < j)%nat -> (j + m = n)%nat -> dead n k j E ->
  dead n k n (fold_left (fun E j => rotate n k j E) (seq j m) E).
Proof.
  intros Hn. induction m as [|m IH]; intros j E Hk Hj H; cbn [seq fold_left]; [replace n with j at 2 by lia; exact H|].
  apply IH; [lia|lia|]. apply rot_dead; assumption.
Qed.
Lemma dead_later n k k' : (k <= k' < n)%nat -> forall l E, (forall j, In j l -> (k' < j < n)%nat) -> dead n k n E ->
  dead n k n (fold_left (fun E j => rotate n k' j E) l E).
Proof.
  intros Hk. induction l as [|j t IH]; intros E Hl H; cbn [fold_left]; [exact H|]. apply IH; [intros; apply Hl; right; assumption|].
  assert (Hj := Hl j ltac:(left; reflexivity)). intros r c Hr Hc.
  unfold rotate. assert (Hkk : E k' k' = None) by (apply H; lia). rewrite Hkk, none_mul_l, none_add_l, none_sqrt, !none_div_r.
  destruct (Nat.leb k' c && Nat.leb c n)%bool; [|apply H; assumption].
  destruct (Nat.eqb r j); [rewrite !none_mul_l; reflexivity|]. destruct (Nat.eqb r k'); [rewrite !none_mul_l; reflexivity|apply H; assumption].
Qed.
Lemma dead_stages n k : forall m k' E, (k <= k')%nat -> (k' + m = n)%nat -> dead n k n E ->
  dead n k n (fold_left (fun E k => fold_left (fun E j => rotate n k j E) (seq (S k) (n - S k)) E) (seq k' m) E).
Proof.
  induction m as [|m IH]; intros k' E Hk Hj H; cbn [seq fold_left]; [exact H|]. apply IH; [lia|lia|].
  apply dead_later; [lia| |exact H]. intros j Hi. apply in_seq in Hi. lia.
Qed.

(** ** back substitution from a broken last row *)
Lemma fold_none (E : nat -> nat -> RX) X k : forall l (v : RX), (v = None \/ exists i, In i l /\ X i = None) ->
  fold_left (fun v i => v -! E k i *! X i) l v = (None : RX).
Proof.
  induction l as [|i t IH]; intros v [H|(i0 & Hi & H)]; cbn [fold_left]; [exact H|destruct Hi|apply IH; left; rewrite H; reflexivity|].
  apply IH. destruct Hi as [->|Hi]; [left; rewrite H, none_mul_r, none_sub_r; reflexivity|right; exists i0; auto].
Qed.
Lemma back_none n (E : nat -> nat -> RX) : forall m X, (m < n)%nat -> (forall i, (m <= i < n)%nat -> X i = None) ->
  forall i, (i < n)%nat -> fold_left (fun x k => back_subst n E x k) (rev (seq 0 m)) X i = None.
Proof.
  induction m as [|m IH]; intros X Hm HX i Hi; [apply HX; lia|]. rewrite seq_S, rev_app_distr. cbn [rev app fold_left Nat.add].
  apply IH; [lia| |exact Hi]. intros i0 Hi0. unfold back_subst, setf. destruct (Nat.eqb_spec i0 m) as [->|]; [|apply HX; lia].
  rewrite fold_none; [reflexivity|]. right. exists (S m). split; [apply in_seq; lia|apply HX; lia].
Qed.
Lemma back_broken n (E : nat -> nat -> RX) (X : nat -> RX) : (0 < n)%nat -> (E (n - 1)%nat (n - 1)%nat = None \/ E (n - 1)%nat (n - 1)%nat = Some 0) ->
  forall i, (i < n)%nat -> fold_left (fun x k => back_subst n E x k) (rev (seq 0 n)) X i = None.
Proof.
  intros Hn H i Hi. destruct n as [|m]; [lia|]. replace (S m - 1)%nat with m in H by lia.
  rewrite seq_S, rev_app_distr. cbn [rev app fold_left Nat.add]. apply back_none; [lia| |exact Hi].
  intros i0 Hi0. replace i0 with m by lia. unfold back_subst, setf. rewrite Nat.eqb_refl.
  destruct H as [H|H]; rewrite H; [apply none_div_r|apply none_div_0].
Qed.
(** a zero column from row k on, met at stage k *)
Lemma zero_column n k E : (k < n)%nat -> (forall r, (k <= r < n)%nat -> E r k = (Some 0 : RX)) ->
  forall i, (i < n)%nat ->
  fold_left (fun x k' => back_subst n (fold_left (fun E k => fold_left (fun E j => rotate n k j E) (seq (S k) (n - S k)) E) (seq k (n - k)) E) x k')
    (rev (seq 0 n)) (fun _ => f0) i = None.
Proof.
  intros Hk H i Hi. apply back_broken; [lia| |exact Hi]. destruct (Nat.eq_dec (S k) n) as [En|Hn].
  - right. subst n. assert (E1 : (S k - k = 1)%nat) by lia. assert (E2 : (S k - 1 = k)%nat) by lia.
    rewrite E1, E2. cbn [seq fold_left]. rewrite Nat.sub_diag. cbn [seq fold_left]. apply H. lia.
  - left. replace (n - k)%nat with (S (n - S k)) by lia. cbn [seq fold_left].
    apply (@dead_stages n k); [lia|lia| |lia|lia].
    replace (n - S k)%nat with (S (n - S (S k))) by lia. cbn [seq fold_left]. apply dead_rows; [lia|lia|lia|].
    apply rot_first; [lia|apply H; lia|apply H; lia].
Qed.

(** ** semidefinite systems *)
Section Semi.
Variable n : nat.
Variable A : nat -> nat -> R.
Variable b : nat -> R.
Hypothesis Sym : forall i j, (i < n)%nat -> (j < n)%nat -> A i j = A j i.
Let form (y z : nat -> R) : R := sumn n (fun i => sumn n (fun j => y i * A i j * z j)).
Hypothesis Psd : forall y, 0 <= form y y.
Lemma form_lin a c y z w : form (fun i => a * y i + c * z i) w = a * form y w + c * form z w.
Proof.
  unfold form. rewrite <- sumn_lin. apply sumn_ext. intros i _. rewrite <- sumn_lin. apply sumn_ext. intros; ring.
Qed.
Lemma form_sym y z : form y z = form z y.
Proof. unfold form. rewrite sumn_swap. apply sumn_ext. intros i Hi. apply sumn_ext. intros j Hj. rewrite (Sym Hi Hj). ring. Qed.
Lemma form_null y z : form y y = 0 -> form z y = 0.
Proof.
  intros H. destruct (Req_dec (form z y) 0) as [E|E]; [exact E|]. exfalso.
  set (f := form z y) in *. assert (Pz := Psd z).
  (* form (t z + y) = t^2 form z + 2 t f *)
  assert (G : forall t, 0 <= t * t * form z z + 2 * t * f).
  { intros t. assert (X := Psd (fun i => t * z i + 1 * y i)). rewrite form_lin in X.
    rewrite (form_sym z), (form_sym y) in X. rewrite !form_lin in X. rewrite H, (form_sym y z) in X. fold f in X. lra. }
  destruct (Req_dec (form z z) 0) as [Z|Z].
  - assert (X := G (- f)). rewrite Z in X. nra.
  - assert (Q : 0 < form z z) by lra. assert (X := G (- f / form z z)).
    replace (- f / form z z * (- f / form z z) * form z z + 2 * (- f / form z z) * f) with (- (f * f) / form z z) in X by (field; lra).
    assert (0 < f * f) by nra. assert (0 < f * f / form z z) by (apply Rdiv_lt_0_compat; assumption).
    replace (- (f * f) / form z z) with (- (f * f / form z z)) in X by (field; lra). lra.
Qed.
Lemma stage_cases k E : (k < n)%nat -> stage n A b k E -> mid n A b k (S k) E \/ forall r, (k <= r < n)%nat -> E r k = Some 0.
Proof.
  intros Hk (M & Y & HR & HC & HZ & HY & HD & HS). destruct (HY k ltac:(lia)) as [Y1 Y2].
  destruct (Req_dec (M k k) 0) as [Z|Z].
  - right. intros r Hr. rewrite (HR r k) by lia. f_equal.
    assert (F0 : form (Y k) (Y k) = 0).
    { unfold form. rewrite sumn_swap. apply sumn_zero. intros c0 Hc0. transitivity (Y k c0 * M k c0).
      - rewrite (HC k c0 Hk Hc0), <- sumn_scale. apply sumn_ext. intros; ring.
      - destruct (Nat.lt_trichotomy c0 k) as [L|[->|L]].
        + rewrite (HZ k c0) by lia. ring.
        + rewrite Z. ring.
        + rewrite (Y2 c0) by lia. ring. }
    assert (S0 : sumn n (fun c => M r c * Y k c) = 0).
    { transitivity (sumn n (fun c => sumn n (fun i => Y r i * A i c * Y k c))).
      - apply sumn_ext. intros c Hc. rewrite (HC r c), Rmult_comm, <- sumn_scale by lia. apply sumn_ext. intros; ring.
      - rewrite sumn_swap. exact (form_null _ (Y r) F0). }
    rewrite (@sumn_one n k) in S0; [|exact Hk|].
    + apply Rmult_integral in S0. destruct S0 as [S0|S0]; [exact S0|contradiction].
    + intros c Hc Hn. destruct (Nat.lt_trichotomy c k) as [L|[->|L]]; [rewrite (HZ r c) by lia; ring|contradiction|rewrite (Y2 c) by lia; ring].
  - left. exists M, Y. split; [exact HR|]. split; [exact HC|]. split; [exact HZ|].
    split; [intros; lia|]. split; [intros r Hr; apply HY; lia|]. split; [intros i Hi; apply HY; lia|]. split; [|exact HS].
    intros c Hc. destruct (Nat.eq_dec c k) as [->|]; [exact Z|apply HD; lia].
Qed.
Lemma semi_cases : forall m k E, (k + m = n)%nat -> stage n A b k E ->
  stage n A b n (fold_left (fun E k => fold_left (fun E j => rotate n k j E) (seq (S k) (n - S k)) E) (seq k m) E) \/
  forall i, (i < n)%nat -> fold_left (fun x k' => back_subst n
    (fold_left (fun E k => fold_left (fun E j => rotate n k j E) (seq (S k) (n - S k)) E) (seq k m) E) x k') (rev (seq 0 n)) (fun _ => f0) i = None.
Proof.
  induction m as [|m IH]; intros k E Hk H; [left; cbn [seq fold_left]; assert (k = n) as -> by lia; exact H|].
  assert (Hkn : (k < n)%nat) by lia. destruct (stage_cases Hkn H) as [H1|H1].
  - cbn [seq fold_left]. apply IH; [lia|]. apply mid_close, rows; [lia|lia|exact H1].
  - right. replace (S m) with (n - k)%nat by lia. apply zero_column; [lia|exact H1].
Qed.
Theorem singular_nan : ~ definite n A -> forall i, (i < n)%nat -> solve_linear n (extended n A b) i = None.
Proof.
  intros HN. destruct (@semi_cases n 0 (extended n A b) ltac:(lia) (stage_start n A b)) as [H|H]; [|exact H].
  exfalso. apply HN. intros y (i & Hi & Hy) F0. change (form y y = 0) in F0.
  destruct H as (M & Y & HR & HC & HZ & HY & HD & HS).
  (* the triangular matrix annihilates y *)
  assert (T : forall r, (r < n)%nat -> sumn n (fun c => M r c * y c) = 0).
  { intros r Hr. transitivity (form (Y r) y); [|apply form_null, F0]. unfold form. rewrite sumn_swap. apply sumn_ext. intros c Hc.
    rewrite (HC r c), Rmult_comm, <- sumn_scale by lia. apply sumn_ext. intros; ring. }
  assert (G : forall d r, (r + d = n)%nat -> forall c, (r <= c < n)%nat -> y c = 0).
  { induction d as [|d IHd]; intros r Hr c Hc; [lia|]. destruct (Nat.eq_dec c r) as [->|]; [|apply (IHd (S r)); lia].
    assert (X := T r ltac:(lia)). rewrite (@sumn_one n r) in X; [|lia|].
    - apply Rmult_integral in X. destruct X as [X|X]; [exfalso; apply (HD r); [lia|lia|exact X]|exact X].
    - intros c0 H0 Hn. destruct (Nat.lt_ge_cases c0 r); [rewrite HZ by lia; ring|rewrite (IHd (S r)) by lia; ring]. }
  apply Hy. apply (G n 0%nat); lia.
Qed.
End Semi.

(** ** too few different times *)
Lemma times_list (ts : list R) : exists us, NoDup us /\ incl us ts /\ incl ts us.
Proof.
  exists (nodup Req_EM_T ts). split; [apply NoDup_nodup|]. split; intros x Hx; apply (nodup_In Req_EM_T); assumption.
Qed.
Lemma vanishing n (ts : list R) : (List.length ts < n)%nat -> exists cs, List.length cs = n /\ (forall t, In t ts -> peval cs t = 0) /\ exists i, (i < n)%nat /\ nth i cs 0 <> 0.
Proof.
  revert n. induction ts as [|t ts IH]; intros n H.
  - exists (coefs n (fun i => if Nat.eqb i 0 then 1 else 0)). split; [apply coefs_len|]. split; [intros t []|]. exists 0%nat. cbn in H.
    split; [lia|]. rewrite coefs_nth by lia. cbn. lra.
  - cbn [List.length] in H. destruct n as [|n]; [lia|]. destruct (IH n ltac:(lia)) as (cs & L & Hz & i & Hi & Hn).
    assert (P : is_poly n (peval cs)) by (exists cs; auto).
    destruct (poly_factor 1 (- t) P) as (ds & Ld & Hd). exists ds. split; [exact Ld|]. split.
    + intros u [<-|Hu]; rewrite <- Hd; [ring|]. rewrite (Hz u Hu). ring.
    + destruct (Exists_dec (fun i => nth i ds 0 <> 0) (seq 0 (S n))) as [D|D].
      { intros k. destruct (Req_EM_T (nth k ds 0) 0); [right; auto|left; auto]. }
      * apply Exists_exists in D. destruct D as (k & Hk & Hd2). apply in_seq in Hk. exists k. split; [lia|exact Hd2].
      * exfalso. apply Hn. assert (Zd : zeros ds).
        { intros k. destruct (Req_EM_T (nth k ds 0) 0) as [E|E]; [exact E|]. exfalso. destruct (Nat.lt_ge_cases k (S n)) as [Lk|Lk].
          - apply D. apply Exists_exists. exists k. split; [apply in_seq; lia|exact E].
          - apply E. apply nth_overflow. lia. }
        assert (Zc : zeros cs).
        { apply (@roots n cs (map (fun i => t + INR (S i)) (seq 0 n))); [exact L| |rewrite map_length, seq_length; reflexivity|].
          - apply FinFun.Injective_map_NoDup; [|apply seq_NoDup]. intros u v E. assert (INR (S u) = INR (S v)) by lra. apply INR_eq in H0. lia.
          - intros u Hu. apply in_map_iff in Hu. destruct Hu as (k & <- & _). specialize (Hd (t + INR (S k))).
            rewrite (peval_zeros _ Zd) in Hd. assert (INR (S k) <> 0) by (apply not_0_INR; lia).
            apply Rmult_eq_reg_l with (INR (S k)); [|assumption]. rewrite Rmult_0_r, <- Hd. ring. }
        apply Zc.
Qed.
Lemma nodup_firstn {T : Type} n (l : list T) : NoDup l -> NoDup (firstn n l).
Proof.
  intros H. revert n. induction H as [|x t Hx H IH]; intros [|n]; cbn [firstn]; constructor; [|apply IH].
  intros Hi. apply Hx. rewrite <- (firstn_skipn n t). apply in_or_app. left. exact Hi.
Qed.
Lemma few_singular n ps : ~ distinct_times n ps -> ~ definite n (fun i j => rsum (map (fun p : R * R => fst p ^ (i + j)) ps)).
Proof.
  intros HN HD. destruct (times_list (map fst ps)) as (us & U1 & U2 & U3).
  assert (L : (List.length us < n)%nat).
  { destruct (Nat.lt_ge_cases (List.length us) n) as [L|L]; [exact L|]. exfalso. apply HN. exists (firstn n us).
    split; [|split; [apply firstn_length_le; exact L|intros x Hx; apply U2; rewrite <- (firstn_skipn n us); apply in_or_app; left; exact Hx]].
    apply nodup_firstn, U1. }
  destruct (vanishing us L) as (cs & Lc & Hz & i & Hi & Hn).
  apply (HD (fun i => nth i cs 0)); [exists i; auto|]. rewrite form_square.
  replace (coefs n (fun i => nth i cs 0)) with cs by (rewrite <- Lc; symmetry; apply coefs_of).
  clear - Hz U3. induction ps as [|p t IH]; cbn [map]; [apply rsum_nil|]. rewrite rsum_cons, IH.
  - rewrite (Hz (fst p)) by (apply U3; left; reflexivity). ring.
  - intros x Hx. apply U3. right. exact Hx.
Qed.
Theorem fit_degenerate ord c f ps : pf_reach ord c f -> window_of f ps -> (pc_power c < List.length ps)%nat ->
  ~ distinct_times (S (pc_power c)) ps -> pf_coeff f = repeat (None : RX) (S (pc_power c)).
Proof.
  intros HR (Wx & Wy) Hl HN. destruct (reach_coeff HR) as (ps' & (Wx' & Wy') & Hco).
  assert (El : List.length ps = List.length ps') by (rewrite Wx' in Wx; apply (f_equal (@List.length _)) in Wx; rewrite !map_length in Wx; auto).
  rewrite Hco by lia. rewrite Wx, Wy. unfold ls_coeff. set (n := S (pc_power c)) in *.
  assert (X : forall i, (i < n)%nat -> solve_linear n (pf_matrix n (map (fun p => Some (fst p)) ps) (map (fun p => Some (snd p)) ps)) i = (None : RX)).
  { intros i Hi. set (A := fun i j => rsum (map (fun p : R * R => fst p ^ (i + j)) ps)).
    assert (Sym : forall i j, (i < n)%nat -> (j < n)%nat -> A i j = A j i) by (intros; unfold A; rewrite Nat.add_comm; reflexivity).
    assert (Psd : forall y, 0 <= sumn n (fun i => sumn n (fun j => y i * A i j * y j))).
    { intros y. unfold A. rewrite form_square. apply rsum_nonneg. intros z Hz. apply in_map_iff in Hz. destruct Hz as (w & <- & _). apply Rle_0_sqr. }
    rewrite <- (@singular_nan n A (fun i => rsum (map (fun p : R * R => fst p ^ i * snd p) ps)) Sym Psd (few_singular HN) i Hi).
    apply solve_linear_ext; [|exact Hi]. intros r k Hr Hk. unfold pf_matrix, extended.
    rewrite pf_b_real, pf_sub_real. destruct (Nat.eqb k n); reflexivity. }
  clearbody n.
  assert (G : forall l, (forall i, In i l -> (i < n)%nat) -> map (solve_linear n (pf_matrix n (map (fun p => Some (fst p)) ps) (map (fun p => Some (snd p)) ps))) l = repeat (None : RX) (List.length l)).
  { induction l as [|i t IH]; intros H; [reflexivity|]. cbn [map List.length repeat]. rewrite X by (apply H; left; reflexivity).
    apply (f_equal2 (@cons RX) eq_refl). apply IH. intros; apply H; right; assumption. }
  rewrite G by (intros i Hi; apply in_seq in Hi; lia). rewrite seq_length. reflexivity.
Qed.
(** predictions from such coefficients, and after such a prediction *)
Lemma predict_nan (c : pfconf RX) (f : polyfit RX) ps t : window_of f ps -> (2 <= List.length ps)%nat -> (pc_power c < List.length ps)%nat ->
  (pf_coeff f = repeat (None : RX) (S (pc_power c)) \/ pf_last f = None) ->
  snd (pf_predict c f t) = None /\ pf_last (fst (pf_predict c f t)) = None.
Proof.
  intros (Wx & Wy) H1 H2 H. unfold pf_predict. rewrite Wy, map_length.
  destruct (Nat.eqb_spec (List.length ps) 0); [lia|]. destruct (Nat.eqb_spec (List.length ps) 1); [lia|].
  destruct (Nat.ltb_spec (List.length ps) (S (pc_power c))); [lia|]. cbn [orb fst snd pf_last].
  assert (X : ls_solution c (pf_coeff f) t *! pc_weight c +! pf_last f *! (f1 -! pc_weight c) = (None : RX)); [|rewrite X; split; reflexivity].
  destruct H as [H|H]; [|rewrite H, none_mul_l; apply none_add_r].
  assert (Y : ls_solution c (pf_coeff f) t = None).
  { unfold ls_solution. rewrite H. cbn [seq fold_left]. cbn [repeat nth]. rewrite none_mul_l, none_add_r.
    generalize (seq 1 (pc_power c)). intros l. induction l as [|i u IH]; cbn [fold_left]; [reflexivity|]. rewrite none_add_l. exact IH. }
  rewrite Y, none_mul_l. apply none_add_l.
Qed.
