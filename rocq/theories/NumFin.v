(** Laws about finite values shared by the real and the binary64 instance:
    which sums, means and differences compare with themselves (are not NaN). *)
From Coq Require Import ZArith Bool Reals Lra Lia SpecFloat.
From Verif Require Import Num NumReal NumFloat.

Class NumFin (F : Type) {NF : Num F} := {
  (* a value strictly between two others is finite *)
  between_fin : forall a x b : F, (a <! x) = true -> (x <! b) = true -> fisfinite x = true;
  zero_num : ((f0 : F) <=! f0) = true;
  (* a finite summand does not make a NaN *)
  add_num : forall s x : F, (s <=! s) = true -> fisfinite x = true -> ((s +! x) <=! (s +! x)) = true;
  add_zero_fin : forall x : F, fisfinite x = true -> fisfinite (x +! f0) = true;
  (* nor does division by a count *)
  mean_num : forall (s : F) n, (s <=! s) = true -> (0 < n < 2 ^ 64)%Z -> ((s /! fofZ n) <=! (s /! fofZ n)) = true;
  (* x - x is zero or NaN *)
  sub_self : forall a x : F, (a <! f0) = false -> (a <! (x -! x)) = false;
}.

Global Instance fin_real : NumFin RX.
Proof.
  constructor.
  - intros [a|] [x|] [b|]; cbn; congruence.
  - cbn. apply Rleb_true. lra.
  - intros [s|] [x|]; cbn; try discriminate. intros _ _. apply Rleb_true. lra.
  - intros [x|]; cbn; auto.
  - intros [s|] n; cbn [fleb fdiv fofZ num_real rcmp rdiv]; try discriminate. intros _ [Hn _].
    destruct (Reqb (IZR n) 0) eqn:E.
    + apply Reqb_true in E. apply eq_IZR in E. lia.
    + cbn. apply Rleb_true. lra.
  - intros [a|] [x|]; cbn; try reflexivity. intros H. apply Rltb_false in H. apply Rltb_false. lra.
Qed.

Open Scope Z_scope.

(** ** Rounding never makes a NaN *)
Lemma shr_1_div2 r : 0 <= shr_m r -> shr_m (shr_1 r) = Z.div2 (shr_m r) /\ 0 <= shr_m (shr_1 r).
Proof. destruct r as [[|[p|p|]|p] a b]; cbn; intros; lia. Qed.
Lemma iter_shiftr p : forall r, 0 <= shr_m r ->
  shr_m (SpecFloat.iter_pos shr_1 p r) = Z.shiftr (shr_m r) (Zpos p) /\ 0 <= shr_m (SpecFloat.iter_pos shr_1 p r).
Proof.
  assert (S1 : forall z, Z.div2 z = Z.shiftr z 1) by reflexivity.
  induction p as [p IH|p IH|]; intros r Hr; cbn [SpecFloat.iter_pos].
  - destruct (shr_1_div2 r Hr) as [E0 H0]. destruct (IH _ H0) as [E1 H1]. destruct (IH _ H1) as [E2 H2].
    split; [|exact H2]. rewrite E2, E1, E0, S1, !Z.shiftr_shiftr by lia. f_equal. lia.
  - destruct (IH _ Hr) as [E1 H1]. destruct (IH _ H1) as [E2 H2].
    split; [|exact H2]. rewrite E2, E1, !Z.shiftr_shiftr by lia. f_equal. lia.
  - destruct (shr_1_div2 r Hr) as [E0 H0]. split; [exact E0|exact H0].
Qed.
Lemma shr_fexp_spec m e l : 0 <= m ->
  let n := Z.max 0 (SpecFloat.fexp prec emax (Zdigits2 m + e) - e) in
  shr_m (fst (shr_fexp prec emax m e l)) = Z.shiftr m n /\ snd (shr_fexp prec emax m e l) = e + n.
Proof.
  intros Hm n. unfold shr_fexp.
  assert (Hl : shr_m (shr_record_of_loc m l) = m) by (destruct l as [|[]]; reflexivity).
  unfold shr, n. destruct (SpecFloat.fexp prec emax (Zdigits2 m + e) - e) as [|p|p]; cbn [fst snd].
  - rewrite Hl, Z.shiftr_0_r. split; [reflexivity|lia].
  - destruct (iter_shiftr p (shr_record_of_loc m l)) as [E _]; [lia|]. rewrite E, Hl. split; [f_equal|]; lia.
  - rewrite Hl. replace (Z.max 0 (Zneg p)) with 0 by lia. rewrite Z.shiftr_0_r. split; [reflexivity|lia].
Qed.
Lemma round_even_bounds m l : m <= round_nearest_even m l <= m + 1.
Proof. destruct l as [|[]]; cbn; try lia. destruct (Z.even m); lia. Qed.

Lemma round_aux_num s m e l : 0 <= m -> binary_round_aux prec emax s m e l <> S754_nan.
Proof.
  intros Hm. unfold binary_round_aux.
  destruct (shr_fexp_spec m e l Hm) as [E1 _]. destruct (shr_fexp prec emax m e l) as [r1 e1]. cbn [fst snd] in *.
  assert (H1 : 0 <= shr_m r1) by (rewrite E1; apply Z.shiftr_nonneg; lia).
  assert (B := round_even_bounds (shr_m r1) (loc_of_shr_record r1)).
  destruct (shr_fexp_spec (round_nearest_even (shr_m r1) (loc_of_shr_record r1)) e1 loc_Exact) as [E2 _]; [lia|].
  destruct (shr_fexp prec emax _ e1 _) as [r2 e2]. cbn [fst snd] in *.
  assert (H2 : 0 <= shr_m r2) by (rewrite E2; apply Z.shiftr_nonneg; lia).
  destruct (shr_m r2); [discriminate|destruct (Zle_bool _ _); discriminate|lia].
Qed.
Lemma normalize_num m e z : binary_normalize prec emax m e z <> S754_nan.
Proof.
  destruct m; cbn [binary_normalize]; [discriminate|unfold binary_round..];
    destruct (shl_align _ _ _); apply round_aux_num; lia.
Qed.

Lemma num_iff x : SFleb x x = true <-> x <> S754_nan.
Proof.
  unfold SFleb. destruct x as [s|s| |s m e]; cbn.
  - split; congruence.
  - destruct s; split; congruence.
  - split; [discriminate|congruence].
  - destruct s; rewrite Z.compare_refl, Pos.compare_cont_refl; cbn; split; congruence.
Qed.

(** ** Counts are finite and not zero *)
Lemma digits_low m : 0 < m -> 2 ^ (Zdigits2 m - 1) <= m < 2 ^ Zdigits2 m.
Proof.
  destruct m as [|p|p]; intros H; [lia| |lia]. cbn [Zdigits2]. clear H.
  induction p as [p IH|p IH|]; [| |cbn; lia]; cbn [digits2_pos];
    (replace (Zpos (Pos.succ (digits2_pos p)) - 1) with (Z.succ (Zpos (digits2_pos p) - 1)) by lia;
     replace (Zpos (Pos.succ (digits2_pos p))) with (Z.succ (Zpos (digits2_pos p))) by lia;
     rewrite !Z.pow_succ_r by lia; lia).
Qed.
Lemma digits_pos m : 0 < m -> 0 < Zdigits2 m.
Proof. destruct m; cbn; lia. Qed.
Lemma digits_le m n : 0 < m -> 0 <= n -> m < 2 ^ n -> Zdigits2 m <= n.
Proof.
  intros Hm Hn H. assert (D := digits_low m Hm). destruct (Z.le_gt_cases (Zdigits2 m) n) as [L|L]; [exact L|].
  assert (2 ^ n <= 2 ^ (Zdigits2 m - 1)) by (apply Z.pow_le_mono_r; lia). lia.
Qed.
Lemma shiftr_keeps m n : 0 < m -> n < Zdigits2 m -> 0 <= n -> 0 < Z.shiftr m n <= m.
Proof.
  intros Hm Hn H0. rewrite Z.shiftr_div_pow2 by lia. assert (P : 0 < 2 ^ n) by (apply Z.pow_pos_nonneg; lia).
  assert (2 ^ n <= m).
  { destruct (digits_low m Hm) as [D _]. assert (2 ^ n <= 2 ^ (Zdigits2 m - 1)) by (apply Z.pow_le_mono_r; lia). lia. }
  split; [apply Z.div_str_pos; lia|]. apply Z.div_le_upper_bound; nia.
Qed.
Lemma fexp_eq x : SpecFloat.fexp prec emax x = Z.max (x - 53) (-1074).
Proof. unfold SpecFloat.fexp, SpecFloat.emin, prec, emax. reflexivity. Qed.

Lemma round_aux_fin s m e : 0 < m < 2 ^ 128 -> -1074 <= e <= 0 ->
  exists m' e', binary_round_aux prec emax s m e loc_Exact = S754_finite s m' e'.
Proof.
  intros Hm He. unfold binary_round_aux.
  destruct (shr_fexp_spec m e loc_Exact ltac:(lia)) as [E1 X1]. destruct (shr_fexp prec emax m e loc_Exact) as [r1 e1].
  cbn [fst snd] in *. rewrite fexp_eq in *.
  assert (D1 := digits_pos m ltac:(lia)). assert (D1' := digits_le m 128 ltac:(lia) ltac:(lia) ltac:(lia)).
  set (n1 := Z.max 0 _) in *.
  assert (K1 := shiftr_keeps m n1 ltac:(lia) ltac:(lia) ltac:(lia)).
  assert (B := round_even_bounds (shr_m r1) (loc_of_shr_record r1)).
  set (q := round_nearest_even _ _) in *.
  rewrite E1 in B. destruct (shr_fexp_spec q e1 loc_Exact) as [E2 X2]; [lia|].
  destruct (shr_fexp prec emax q e1 _) as [r2 e2]. cbn [fst snd] in *. rewrite fexp_eq in *.
  assert (D2 := digits_pos q ltac:(lia)).
  assert (D2' : Zdigits2 q <= 129) by (apply digits_le; try lia; assert (2 ^ 129 = 2 * 2 ^ 128) by reflexivity; lia).
  set (n2 := Z.max 0 (Z.max (Zdigits2 q + e1 - 53) (-1074) - e1)) in *.
  assert (K2 := shiftr_keeps q n2 ltac:(lia) ltac:(lia) ltac:(lia)).
  rewrite <- E2 in K2. destruct (shr_m r2) as [|p|p]; [lia| |lia].
  assert (L : Zle_bool e2 (emax - prec) = true) by (apply Z.leb_le; unfold emax, prec; lia).
  rewrite L. eauto.
Qed.
Lemma count_fin n : 0 < n < 2 ^ 64 -> exists m e, sf_ofZ n = S754_finite false m e.
Proof.
  intros Hn. destruct n as [|p|p]; [lia| |lia]. unfold sf_ofZ. cbn [binary_normalize]. unfold binary_round.
  rewrite fexp_eq. assert (D := digits_pos (Zpos p) ltac:(lia)).
  assert (D' := digits_le (Zpos p) 64 ltac:(lia) ltac:(lia) ltac:(lia)). cbn [Zdigits2] in D, D'.
  unfold shl_align. destruct (Z.max _ _ - 0) as [|d|d] eqn:E.
  - apply round_aux_fin; lia.
  - apply round_aux_fin; lia.
  - apply round_aux_fin; [|lia].
    rewrite Zpower.shift_pos_correct. change (Z.pow_pos 2 d) with (2 ^ Zpos d).
    destruct (digits_low (Zpos p)) as [_ U]; [lia|]. cbn [Zdigits2] in U.
    assert (Hd : Zpos d = 53 - Zpos (digits2_pos p)) by lia. split; [nia|].
    apply Z.lt_le_trans with (2 ^ Zpos d * 2 ^ Zpos (digits2_pos p)).
    + apply Z.mul_lt_mono_pos_l; [apply Z.pow_pos_nonneg; lia|exact U].
    + rewrite <- Z.pow_add_r by lia. apply Z.pow_le_mono_r; lia.
Qed.

Lemma fin_float (t : transc) : @NumFin SF (num_float t).
Proof.
  constructor.
  - cbn. intros a x b H1 H2. destruct x as [| [|] | |]; try reflexivity.
    + destruct a as [[]|[]| |[] ? ?]; cbn in H1; discriminate.
    + destruct b as [[]|[]| |[] ? ?]; cbn in H2; discriminate.
    + destruct a as [[]|[]| |[] ? ?]; cbn in H1; discriminate.
  - reflexivity.
  - cbn [fleb fadd num_float]. intros s x Hs Hx. apply num_iff. apply num_iff in Hs.
    destruct x as [sx|sx| |sx mx ex]; cbn in Hx; try discriminate; destruct s as [ss|ss| |ss ms es]; try congruence; cbn [SFadd];
      try (destruct (Bool.eqb _ _)); try discriminate. apply normalize_num.
  - intros [s|s| |s m e]; cbn; try discriminate; [destruct s|]; reflexivity.
  - cbn [fleb fdiv fofZ num_float]. intros s n Hs Hn. apply num_iff. apply num_iff in Hs.
    destruct (count_fin n Hn) as (m & e & ->). destruct s as [ss|ss| |ss ms es]; try congruence; cbn [SFdiv]; try discriminate.
    unfold SFdiv_core_binary. cbv zeta.
    match goal with |- context [Z.div_eucl ?a ?b] => set (A := a) end.
    assert (HA : 0 <= A).
    { unfold A. destruct (es - e - _); try lia. apply Z.shiftl_nonneg. lia. }
    assert (Q := Z.div_pos A (Zpos m) HA ltac:(lia)). unfold Z.div in Q.
    destruct (Z.div_eucl A (Zpos m)) as [q r]. apply round_aux_num, Q.
  - cbn [fltb fsub num_float]. intros a x H.
    assert (Z0 : forall s, SFltb a (S754_zero s) = false).
    { intros s. destruct a as [sa|sa| |sa ma ea]; cbn in *; auto. }
    assert (NN : SFltb a S754_nan = false) by (destruct a; reflexivity).
    destruct x as [sx|sx| |sx mx ex]; cbn [SFsub]; auto.
    + destruct sx; cbn; apply Z0.
    + destruct sx; cbn; apply NN.
    + rewrite Z.sub_diag || idtac.
      match goal with |- context [binary_normalize _ _ ?a _ _] => replace a with 0 by lia end. apply Z0.
Qed.
