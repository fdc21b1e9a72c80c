(** Binary64 arithmetic on whole multiples of a power of two: sums are exact,
    comparisons are those of the integers, quotients are nearest doubles. *)
From Coq Require Import ZArith Lia SpecFloat Bool.
From Verif Require Import NumFloat NumFin.
Open Scope Z_scope.

Lemma pow2_pos n : 0 <= n -> 0 < 2 ^ n.
Proof. intros H. apply Z.pow_pos_nonneg; lia. Qed.
Lemma digits_ge m n : 0 < m -> 0 <= n -> 2 ^ n <= m -> n < Zdigits2 m.
Proof.
  intros Hm Hn H. assert (D := digits_low m Hm). destruct (Z.le_gt_cases (Zdigits2 m) n) as [L|L]; [|exact L].
  assert (2 ^ Zdigits2 m <= 2 ^ n) by (apply Z.pow_le_mono_r; lia). lia.
Qed.
Lemma digits_unique m d : 0 < m -> 0 < d -> 2 ^ (d - 1) <= m < 2 ^ d -> Zdigits2 m = d.
Proof.
  intros Hm Hd [L U]. assert (A := digits_le m d Hm ltac:(lia) U). assert (B := digits_ge m (d - 1) Hm ltac:(lia) L). lia.
Qed.
Lemma digits_shift m n : 0 < m -> 0 <= n -> Zdigits2 (m * 2 ^ n) = Zdigits2 m + n.
Proof.
  intros Hm Hn. assert (P := pow2_pos n Hn). assert (D := digits_low m Hm). assert (D0 := digits_pos m Hm).
  apply digits_unique; [nia|lia|].
  replace (Zdigits2 m + n - 1) with (Zdigits2 m - 1 + n) by lia. rewrite !Z.pow_add_r by lia. nia.
Qed.

(** ** Exact shifts *)
Definition rec (m : Z) : shr_record := Build_shr_record m false false.
Lemma shr_1_exact m : 0 < m -> shr_1 (rec (m * 2)) = rec m.
Proof. intros H. destruct m as [|p|p]; try lia. rewrite Z.mul_comm. reflexivity. Qed.
Lemma iter_exact p : forall m, 0 < m -> SpecFloat.iter_pos shr_1 p (rec (m * 2 ^ Zpos p)) = rec m.
Proof.
  induction p as [p IH|p IH|]; intros m Hm; cbn [SpecFloat.iter_pos].
  - assert (P := pow2_pos (Zpos p) ltac:(lia)).
    replace (m * 2 ^ Zpos p~1) with (m * 2 ^ Zpos p * 2 ^ Zpos p * 2).
    + rewrite shr_1_exact by nia. rewrite IH by nia. apply IH, Hm.
    + replace (Zpos p~1) with (Zpos p + Zpos p + 1) by lia. rewrite !Z.pow_add_r by lia. ring.
  - assert (P := pow2_pos (Zpos p) ltac:(lia)).
    replace (m * 2 ^ Zpos p~0) with (m * 2 ^ Zpos p * 2 ^ Zpos p).
    + rewrite IH by nia. apply IH, Hm.
    + replace (Zpos p~0) with (Zpos p + Zpos p) by lia. rewrite Z.pow_add_r by lia. ring.
  - change (2 ^ 1) with 2. apply shr_1_exact, Hm.
Qed.
Lemma shr_exact m e n : 0 < m -> 0 <= n -> shr (rec (m * 2 ^ n)) (e - n) n = (rec m, e).
Proof.
  intros Hm Hn. unfold shr. destruct n as [|p|p]; [|rewrite iter_exact by exact Hm; f_equal; lia|lia].
  change (2 ^ 0) with 1. rewrite Z.mul_1_r, Z.sub_0_r. reflexivity.
Qed.

(** ** Canonical numbers *)
Definition canon (m e : Z) : Prop := 0 < m /\ Z.max (Zdigits2 m + e - 53) (-1074) = e /\ e <= 971.
Lemma aux_shift s m e n : canon m e -> 0 <= n ->
  binary_round_aux prec emax s (m * 2 ^ n) (e - n) loc_Exact = S754_finite s (Z.to_pos m) e.
Proof.
  intros (Hm & Hc & He) Hn. unfold binary_round_aux, shr_fexp. rewrite !fexp_eq, (digits_shift m n Hm Hn).
  replace (Zdigits2 m + n + (e - n) - 53) with (Zdigits2 m + e - 53) by lia. rewrite Hc.
  replace (e - (e - n)) with n by lia. change (shr_record_of_loc (m * 2 ^ n) loc_Exact) with (rec (m * 2 ^ n)).
  rewrite (shr_exact m e n Hm Hn). cbn [rec shr_m loc_of_shr_record round_nearest_even]. rewrite ?fexp_eq, Hc, Z.sub_diag.
  unfold shr; cbn [shr_record_of_loc shr_m]. destruct m as [|p|p]; try lia. cbn [Z.to_pos].
  replace (Zle_bool e (emax - prec)) with true; [reflexivity|]. symmetry. apply Z.leb_le. exact He.
Qed.
Lemma aux_canon s m e : canon m e -> binary_round_aux prec emax s m e loc_Exact = S754_finite s (Z.to_pos m) e.
Proof.
  intros H. assert (E := aux_shift s m e 0 H ltac:(lia)). change (2 ^ 0) with 1 in E. rewrite Z.mul_1_r, Z.sub_0_r in E. exact E.
Qed.
(** a positive number below 2^53, times a power of two, has a canonical form *)
Lemma canon_of z g : 0 < z < 2 ^ 53 -> -1022 <= g <= 900 ->
  let k := 53 - Zdigits2 z in 0 <= k <= 52 /\ canon (z * 2 ^ k) (g - k).
Proof.
  intros Hz Hg k. assert (D := digits_le z 53 ltac:(lia) ltac:(lia) ltac:(lia)). assert (D0 := digits_pos z ltac:(lia)).
  unfold k. split; [lia|]. assert (P := pow2_pos (53 - Zdigits2 z) ltac:(lia)). split; [nia|].
  rewrite digits_shift by lia. lia.
Qed.
Lemma round_low s m e M E : canon M E -> 0 <= E - e -> Zpos m = M * 2 ^ (E - e) -> binary_round prec emax s m e = S754_finite s (Z.to_pos M) E.
Proof.
  intros H Hn Em. unfold binary_round. rewrite fexp_eq. change (Zpos (digits2_pos m)) with (Zdigits2 (Zpos m)).
  destruct H as (Hm & Hc & He). rewrite Em, (digits_shift M _ Hm Hn).
  replace (Zdigits2 M + (E - e) + e - 53) with (Zdigits2 M + E - 53) by lia. rewrite Hc.
  unfold shl_align. destruct (E - e) as [|p|p] eqn:X; [| |lia];
  rewrite Em; [assert (X' : e = E - 0) by lia|assert (X' : e = E - Zpos p) by lia]; rewrite X'; apply aux_shift; try lia; repeat split; assumption.
Qed.
Lemma round_high s m e M E : canon M E -> 0 <= e - E -> M = Zpos m * 2 ^ (e - E) -> binary_round prec emax s m e = S754_finite s (Z.to_pos M) E.
Proof.
  intros H Hn Em. unfold binary_round. rewrite fexp_eq. change (Zpos (digits2_pos m)) with (Zdigits2 (Zpos m)).
  assert (Hc := H). destruct Hc as (Hm & Hc & He). rewrite Em in Hc. rewrite digits_shift in Hc by lia.
  replace (Zdigits2 (Zpos m) + (e - E) + E - 53) with (Zdigits2 (Zpos m) + e - 53) in Hc by lia. rewrite Hc.
  unfold shl_align. destruct (E - e) as [|p|p] eqn:X; [| lia|].
  - assert (e = E) by lia. subst e. rewrite Z.sub_diag in Em. change (2 ^ 0) with 1 in Em. rewrite Z.mul_1_r in Em. subst M. apply (aux_canon s _ _ H).
  - rewrite Zpower.shift_pos_correct. change (Z.pow_pos 2 p) with (2 ^ Zpos p).
    replace (2 ^ Zpos p * Zpos m) with M by (rewrite Em; replace (e - E) with (Zpos p) by lia; ring). apply (aux_canon s _ _ H).
Qed.

(** ** The double z * 2^g *)
Definition dbl (z g : Z) : SF := binary_normalize prec emax z g false.
Definition small (z : Z) : Prop := - 2 ^ 53 < z < 2 ^ 53.
Definition grid (g : Z) : Prop := -900 <= g <= 900.
Definition mant (z : Z) : Z := Z.abs z * 2 ^ (53 - Zdigits2 (Z.abs z)).
Definition expo (z g : Z) : Z := g - (53 - Zdigits2 (Z.abs z)).
Lemma dbl_canon z g : z <> 0 -> small z -> -1022 <= g <= 900 ->
  0 <= g - expo z g <= 52 /\ canon (mant z) (expo z g) /\ mant z = Z.abs z * 2 ^ (g - expo z g).
Proof.
  intros H0 [Hl Hu] Hg. destruct (canon_of (Z.abs z) g ltac:(lia) Hg) as [K C]. unfold mant, expo in *.
  split; [lia|]. split; [exact C|]. f_equal. f_equal. lia.
Qed.
Lemma dbl_finite z g : z <> 0 -> small z -> -1022 <= g <= 900 -> dbl z g = S754_finite (z <? 0) (Z.to_pos (mant z)) (expo z g).
Proof.
  intros H0 Hs Hg. destruct (dbl_canon z g H0 Hs Hg) as (K & C & E). unfold dbl.
  destruct z as [|p|p]; [lia| |]; cbn [binary_normalize].
  - apply (round_high false p g _ _ C); [lia|exact E].
  - apply (round_high true p g _ _ C); [lia|exact E].
Qed.
Lemma dbl_zero g : dbl 0 g = S754_zero false.
Proof. reflexivity. Qed.
(** the same number written with a smaller power *)
Lemma norm_value M e z g : small z -> -1022 <= g <= 900 -> z <> 0 -> e <= expo z g -> M = z * 2 ^ (g - e) -> binary_normalize prec emax M e false = dbl z g.
Proof.
  intros Hs Hg H0 He EM. rewrite (dbl_finite z g H0 Hs Hg). destruct (dbl_canon z g H0 Hs Hg) as (K & C & E).
  assert (P := pow2_pos (g - e) ltac:(lia)).
  assert (A : Z.abs M = mant z * 2 ^ (expo z g - e)).
  { rewrite EM, E, Z.abs_mul, (Z.abs_eq (2 ^ _)) by lia. rewrite <- Z.mul_assoc, <- Z.pow_add_r by lia. do 2 f_equal. lia. }
  destruct z as [|p|p]; [lia| |].
  - assert (HM : 0 < M) by nia. destruct M as [|q|q]; [lia| |lia]. cbn [binary_normalize]. cbn [Z.abs] in A. apply (round_low false q e _ _ C); [lia|exact A].
  - assert (HM : M < 0) by nia. destruct M as [|q|q]; [lia|lia|]. cbn [binary_normalize]. cbn [Z.abs] in A. apply (round_low true q e _ _ C); [lia|exact A].
Qed.

(** ** Sums *)
Lemma align m e e' : e' <= e -> Zpos (fst (shl_align m e e')) = Zpos m * 2 ^ (e - e').
Proof.
  intros H. unfold shl_align. destruct (e' - e) as [|p|p] eqn:X; [|lia|]; cbn [fst].
  - replace (e - e') with 0 by lia. change (2 ^ 0) with 1. ring.
  - rewrite Zpower.shift_pos_correct. change (Z.pow_pos 2 p) with (2 ^ Zpos p). replace (e - e') with (Zpos p) by lia. ring.
Qed.
Lemma aligned z g ez : z <> 0 -> small z -> -1022 <= g <= 900 -> ez <= expo z g ->
  cond_Zopp (z <? 0) (Zpos (fst (shl_align (Z.to_pos (mant z)) (expo z g) ez))) = z * 2 ^ (g - ez).
Proof.
  intros H0 Hs Hg He. destruct (dbl_canon z g H0 Hs Hg) as (K & (Hm & _) & E). rewrite align by exact He.
  rewrite Z2Pos.id by exact Hm. rewrite E, <- Z.mul_assoc, <- Z.pow_add_r by lia.
  replace (g - expo z g + (expo z g - ez)) with (g - ez) by lia.
  unfold cond_Zopp. destruct (Z.ltb_spec z 0); [rewrite Z.abs_neq by lia|rewrite Z.abs_eq by lia]; ring.
Qed.
Lemma expo_grid z g : small z -> z <> 0 -> expo z g <= g.
Proof.
  intros [Hl Hu] H0. unfold expo. assert (D := digits_le (Z.abs z) 53 ltac:(lia) ltac:(lia) ltac:(lia)). lia.
Qed.
Lemma norm_any M e z g : small z -> -1022 <= g <= 900 -> z <> 0 -> e <= g -> M = z * 2 ^ (g - e) -> binary_normalize prec emax M e false = dbl z g.
Proof.
  intros Hs Hg H0 He EM. destruct (Z.le_gt_cases e (expo z g)) as [L|L]; [exact (norm_value M e z g Hs Hg H0 L EM)|].
  rewrite (dbl_finite z g H0 Hs Hg). destruct (dbl_canon z g H0 Hs Hg) as (K & C & E).
  assert (P := pow2_pos (g - e) ltac:(lia)).
  assert (A : mant z = Z.abs M * 2 ^ (e - expo z g)).
  { rewrite EM, E, Z.abs_mul, (Z.abs_eq (2 ^ _)) by lia. rewrite <- Z.mul_assoc, <- Z.pow_add_r by lia. do 2 f_equal. lia. }
  destruct z as [|p|p]; [lia| |].
  - assert (HM : 0 < M) by nia. destruct M as [|q|q]; [lia| |lia]. cbn [binary_normalize]. cbn [Z.abs] in A. apply (round_high false q e _ _ C); [lia|exact A].
  - assert (HM : M < 0) by nia. destruct M as [|q|q]; [lia|lia|]. cbn [binary_normalize]. cbn [Z.abs] in A. apply (round_high true q e _ _ C); [lia|exact A].
Qed.
Theorem add_exact a b g : grid g -> small a -> small b -> small (a + b) -> SFadd prec emax (dbl a g) (dbl b g) = dbl (a + b) g.
Proof.
  intros Hg Ha Hb Hs. unfold grid in Hg.
  destruct (Z.eq_dec a 0) as [->|A]; [|destruct (Z.eq_dec b 0) as [->|B]].
  - cbn [Z.add]. rewrite dbl_zero. destruct (Z.eq_dec b 0) as [->|B]; [reflexivity|]. rewrite (dbl_finite b g B Hb) by lia. reflexivity.
  - rewrite Z.add_0_r, dbl_zero, (dbl_finite a g A Ha) by lia. reflexivity.
  - rewrite (dbl_finite a g A Ha), (dbl_finite b g B Hb) by lia. cbn [SFadd].
    rewrite !aligned by (auto; lia). rewrite <- Z.mul_add_distr_r.
    assert (La := expo_grid a g Ha A).
    destruct (Z.eq_dec (a + b) 0) as [S|S]; [rewrite S; reflexivity|].
    apply norm_any; auto; lia.
Qed.
Theorem sub_exact a b g : grid g -> small a -> small b -> small (a - b) -> SFsub prec emax (dbl a g) (dbl b g) = dbl (a - b) g.
Proof.
  intros Hg Ha Hb Hs. unfold grid in Hg.
  destruct (Z.eq_dec a 0) as [->|A]; [|destruct (Z.eq_dec b 0) as [->|B]].
  - cbn [Z.sub Z.add]. rewrite dbl_zero. destruct (Z.eq_dec b 0) as [->|B]; [reflexivity|]. rewrite (dbl_finite b g B Hb) by lia. cbn [SFsub].
    assert (Hb' : small (- b)) by (unfold small in *; lia). rewrite (dbl_finite (- b) g) by (auto; lia).
    unfold mant, expo. rewrite Z.abs_opp. f_equal. destruct (Z.ltb_spec b 0), (Z.ltb_spec (- b) 0); cbn; lia.
  - rewrite Z.sub_0_r, dbl_zero, (dbl_finite a g A Ha) by lia. reflexivity.
  - rewrite (dbl_finite a g A Ha), (dbl_finite b g B Hb) by lia. cbn [SFsub].
    rewrite !aligned by (auto; lia). rewrite <- Z.mul_sub_distr_r.
    assert (La := expo_grid a g Ha A).
    destruct (Z.eq_dec (a - b) 0) as [S|S]; [rewrite S; reflexivity|].
    apply norm_any; auto; lia.
Qed.

(** ** Comparisons *)
Lemma canon_lt m1 e1 m2 e2 : canon m1 e1 -> canon m2 e2 -> e1 < e2 -> m1 < m2 * 2 ^ (e2 - e1).
Proof.
  intros (P1 & C1 & _) (P2 & C2 & _) L.
  assert (D2 : Zdigits2 m2 = 53) by lia. destruct (digits_low m2 P2) as [L2 _]. rewrite D2 in L2.
  destruct (digits_low m1 P1) as [_ U1].
  assert (U : 2 ^ Zdigits2 m1 <= 2 ^ 53) by (apply Z.pow_le_mono_r; lia).
  assert (X : 2 ^ 1 <= 2 ^ (e2 - e1)) by (apply Z.pow_le_mono_r; lia). change (53 - 1) with 52 in L2. change (2 ^ 53) with (2 * 2 ^ 52) in U. change (2 ^ 1) with 2 in X. nia.
Qed.
Lemma cmp_scale a b w : 0 < w -> (a * w ?= b * w) = (a ?= b).
Proof. intros H. destruct (Z.compare_spec a b); [subst; apply Z.compare_refl|apply Z.compare_lt_iff; nia|apply Z.compare_gt_iff; nia]. Qed.
Lemma canon_compare m1 e1 m2 e2 f : canon m1 e1 -> canon m2 e2 -> f <= e1 -> f <= e2 ->
  match e1 ?= e2 with Lt => Lt | Gt => Gt | Eq => Pos.compare_cont Eq (Z.to_pos m1) (Z.to_pos m2) end = (m1 * 2 ^ (e1 - f) ?= m2 * 2 ^ (e2 - f)).
Proof.
  intros C1 C2 G1 G2. assert (P1 := pow2_pos (e1 - f) ltac:(lia)). assert (P2 := pow2_pos (e2 - f) ltac:(lia)).
  destruct (Z.compare_spec e1 e2) as [E|L|L].
  - subst e2. change (Pos.compare_cont Eq (Z.to_pos m1) (Z.to_pos m2)) with (Pos.compare (Z.to_pos m1) (Z.to_pos m2)).
    destruct C1 as (Q1 & _), C2 as (Q2 & _). rewrite <- Z2Pos.inj_compare by assumption. symmetry. apply cmp_scale, P1.
  - symmetry. apply Z.compare_lt_iff. assert (K := canon_lt _ _ _ _ C1 C2 L).
    replace (e2 - f) with (e2 - e1 + (e1 - f)) by lia. rewrite Z.pow_add_r by lia. nia.
  - symmetry. apply Z.compare_gt_iff. assert (K := canon_lt _ _ _ _ C2 C1 L).
    replace (e1 - f) with (e1 - e2 + (e2 - f)) by lia. rewrite Z.pow_add_r by lia. nia.
Qed.
(** a double [z 2^g] and a canonical one *)
Lemma compare_canon z g s m e : z <> 0 -> small z -> -1022 <= g <= 900 -> canon m e -> e <= g ->
  SFcompare (dbl z g) (S754_finite s (Z.to_pos m) e) = Some (z * 2 ^ (g - e) ?= (if s then - m else m)).
Proof.
  intros N Hz Hg C Le. rewrite (dbl_finite z g N Hz) by lia. destruct (dbl_canon z g N Hz) as (K1 & C1 & E1); [lia|]. cbn [SFcompare]. f_equal.
  assert (W := pow2_pos (g - e) ltac:(lia)). assert (Mp : 0 < m) by apply C.
  set (f := Z.min (expo z g) e). assert (F := pow2_pos (e - f) ltac:(lia)).
  assert (X := canon_compare _ _ _ _ f C1 C ltac:(lia) ltac:(lia)).
  rewrite E1, <- Z.mul_assoc, <- Z.pow_add_r in X by lia.
  replace (g - expo z g + (expo z g - f)) with (g - e + (e - f)) in X by lia. rewrite Z.pow_add_r, Z.mul_assoc, cmp_scale in X by lia.
  rewrite <- E1 in X.
  destruct z as [|z|z]; [lia| |]; cbn [Z.ltb Z.compare Z.abs] in *; destruct s.
  - symmetry. apply Z.compare_gt_iff. nia.
  - exact X.
  - replace (Z.neg z * 2 ^ (g - e)) with (- (Z.pos z * 2 ^ (g - e))) by (change (Z.neg z) with (- Z.pos z); ring).
    rewrite Z.compare_opp, (Z.compare_antisym (Z.pos z * _)), <- X. destruct (expo (Z.neg z) g ?= e); reflexivity.
  - symmetry. apply Z.compare_lt_iff. change (Z.neg z) with (- Z.pos z). nia.
Qed.
Lemma compare_flip x y : SFcompare y x = match SFcompare x y with Some c => Some (CompOpp c) | None => None end.
Proof.
  destruct x as [s|s| |s m e], y as [s'|s'| |s' m' e']; try destruct s; try destruct s'; cbn; try reflexivity;
  rewrite (Z.compare_antisym e e'); destruct (e ?= e'); cbn; try reflexivity; change (Pos.compare_cont Eq) with Pos.compare; rewrite (Pos.compare_antisym m m'); destruct (m ?= m')%positive; reflexivity.
Qed.
Theorem compare_exact a b g : grid g -> small a -> small b -> SFcompare (dbl a g) (dbl b g) = Some (a ?= b).
Proof.
  intros Hg Ha Hb. unfold grid in Hg.
  destruct (Z.eq_dec a 0) as [->|A]; [|destruct (Z.eq_dec b 0) as [->|B]].
  - rewrite dbl_zero. destruct (Z.eq_dec b 0) as [->|B]; [reflexivity|]. rewrite (dbl_finite b g B Hb) by lia. cbn [SFcompare].
    f_equal. destruct b; cbn; [lia|reflexivity|reflexivity].
  - rewrite dbl_zero, (dbl_finite a g A Ha) by lia. cbn [SFcompare]. f_equal. destruct a; cbn; [lia|reflexivity|reflexivity].
  - rewrite (dbl_finite b g B Hb) by lia. destruct (dbl_canon b g B Hb) as (K2 & C2 & E2); [lia|].
    rewrite (compare_canon a g (b <? 0) (mant b) (expo b g) A Ha ltac:(lia) C2 ltac:(lia)). f_equal.
    rewrite E2. assert (W := pow2_pos (g - expo b g) ltac:(lia)).
    replace (if b <? 0 then _ else _) with (b * 2 ^ (g - expo b g)); [apply cmp_scale, W|].
    destruct (Z.ltb_spec b 0); [rewrite Z.abs_neq by lia|rewrite Z.abs_eq by lia]; ring.
Qed.

(** ** Quotients *)
Lemma loc_spec n r : 0 <= r < n -> match new_location n r with
  | loc_Exact => r = 0 | loc_Inexact Lt => 0 < 2 * r < n | loc_Inexact Eq => 2 * r = n | loc_Inexact Gt => n < 2 * r end.
Proof.
  intros H. unfold new_location, new_location_even, new_location_odd.
  destruct (Z.even n) eqn:E; destruct (Zeq_bool r 0) eqn:R.
  - apply Zeq_bool_eq in R. exact R.
  - apply Zeq_bool_neq in R. destruct (Z.compare_spec (2 * r) n); lia.
  - apply Zeq_bool_eq in R. exact R.
  - apply Zeq_bool_neq in R. assert (O : Z.odd n = true) by (rewrite <- Z.negb_even, E; reflexivity).
    apply Z.odd_spec in O. destruct O as [h O]. destruct (Z.compare_spec (2 * r + 1) n); lia.
Qed.
Lemma norm53 m e : 2 ^ 52 <= m < 2 ^ 53 -> -1074 <= e <= 971 -> canon m e.
Proof.
  intros Hm He. assert (P : 0 < m) by (assert (Q := pow2_pos 52 ltac:(lia)); lia).
  assert (D := digits_unique m 53 P ltac:(lia) Hm). split; [exact P|]. rewrite D. lia.
Qed.
Lemma shr_none m e l : Zdigits2 m = 53 -> -1074 <= e -> shr_fexp prec emax m e l = (shr_record_of_loc m l, e).
Proof.
  intros D He. unfold shr_fexp. rewrite fexp_eq, D. replace (Z.max (53 + e - 53) (-1074) - e) with 0 by lia. reflexivity.
Qed.
Lemma shr_one m e l : Zdigits2 m = 54 -> -1074 <= e -> shr_fexp prec emax m e l = (shr_1 (shr_record_of_loc m l), e + 1).
Proof.
  intros D He. unfold shr_fexp. rewrite fexp_eq, D. replace (Z.max (54 + e - 53) (-1074) - e) with 1 by lia. reflexivity.
Qed.
Lemma finish s m e : 2 ^ 52 <= m <= 2 ^ 53 -> -1074 <= e <= 960 ->
  (let '(r, e') := shr_fexp prec emax m e loc_Exact in
   match shr_m r with Z0 => S754_zero s | Zpos k => if Zle_bool e' (emax - prec) then S754_finite s k e' else S754_infinity s | Zneg _ => S754_nan end)
  = if m =? 2 ^ 53 then S754_finite s (Z.to_pos (2 ^ 52)) (e + 1) else S754_finite s (Z.to_pos m) e.
Proof.
  intros Hm He. destruct (Z.eqb_spec m (2 ^ 53)) as [->|N].
  - rewrite shr_one by (reflexivity || lia). cbn [shr_record_of_loc shr_m].
    change (shr_m (shr_1 (Build_shr_record (2 ^ 53) false false))) with (2 ^ 52). change (2 ^ 52) with (Zpos (Z.to_pos (2 ^ 52))) at 1.
    cbv iota beta. replace (Zle_bool (e + 1) (emax - prec)) with true; [reflexivity|]. symmetry. apply Z.leb_le. unfold emax, prec. lia.
  - assert (P : 0 < m) by (assert (Q := pow2_pos 52 ltac:(lia)); lia).
    rewrite shr_none by (try lia; apply digits_unique; change (53 - 1) with 52; lia). cbn [shr_record_of_loc shr_m].
    destruct m as [|k|k]; try lia. cbn [Z.to_pos].
    replace (Zle_bool e (emax - prec)) with true; [reflexivity|]. symmetry. apply Z.leb_le. unfold emax, prec. lia.
Qed.
(** rounding [q + r/n] to nearest *)
Lemma round_nearest s q n r e : 0 <= r < n -> 2 ^ 52 <= q < 2 ^ 54 -> -1074 <= e <= 950 ->
  exists m k, (k = 0 \/ k = 1) /\ 2 ^ 52 <= m <= 2 ^ 53 /\ 2 * Z.abs (m * (n * 2 ^ k) - (q * n + r)) <= n * 2 ^ k /\
  (m = 2 ^ 52 -> m * (n * 2 ^ k) <= q * n + r) /\
  binary_round_aux prec emax s q e (new_location n r) =
    if m =? 2 ^ 53 then S754_finite s (Z.to_pos (2 ^ 52)) (e + k + 1) else S754_finite s (Z.to_pos m) (e + k).
Proof.
  intros Hr Hq He. assert (L := loc_spec n r Hr). set (l := new_location n r) in *. unfold binary_round_aux.
  assert (Q := pow2_pos 52 ltac:(lia)).
  destruct (Z.lt_ge_cases q (2 ^ 53)) as [S|S].
  - rewrite (shr_none q e l) by (try lia; apply digits_unique; change (53 - 1) with 52; lia).
    replace (shr_m (shr_record_of_loc q l)) with q by (destruct l as [|[]]; reflexivity).
    replace (loc_of_shr_record (shr_record_of_loc q l)) with l by (destruct l as [|[]]; reflexivity).
    exists (round_nearest_even q l), 0. change (2 ^ 0) with 1.
    assert (B := round_even_bounds q l). split; [left; reflexivity|]. split; [lia|]. split.
    + destruct l as [|[]]; cbn [round_nearest_even]; try (destruct (Z.even q)); nia.
    + split; [intros E; replace (round_nearest_even q l) with q by lia; lia|]. rewrite finish by lia. rewrite Z.add_0_r. reflexivity.
  - assert (P54 : 2 ^ 54 = 2 * 2 ^ 53) by reflexivity.
    rewrite (shr_one q e l) by (try lia; apply digits_unique; change (54 - 1) with 53; lia).
    assert (X : exists h b, q = 2 * h + Z.b2z b /\ shr_1 (shr_record_of_loc q l) =
       Build_shr_record h b (match l with loc_Exact => false | _ => true end)).
    { destruct q as [|[p|p|]|p]; try lia.
      - exists (Zpos p), true. split; [cbn [Z.b2z]; lia|]. destruct l as [|[]]; reflexivity.
      - exists (Zpos p), false. split; [cbn [Z.b2z]; lia|]. destruct l as [|[]]; reflexivity. }
    destruct X as (h & b & Eq & ->). cbn [shr_m].
    assert (Hh : 2 ^ 52 <= h < 2 ^ 53) by (change (2 ^ 53) with (2 * 2 ^ 52) in *; destruct b; cbn [Z.b2z] in Eq; lia).
    set (m := round_nearest_even h _). exists m, 1. change (2 ^ 1) with 2.
    split; [right; reflexivity|].
    assert (Bm := round_even_bounds h (loc_of_shr_record (Build_shr_record h b (match l with loc_Exact => false | _ => true end)))). fold m in Bm.
    split; [lia|]. split.
    + unfold m. rewrite Eq. destruct b, l as [|[]]; cbn [loc_of_shr_record round_nearest_even Z.b2z]; try (destruct (Z.even h)); nia.
    + split; [intros E; replace m with h by lia; rewrite Eq; destruct b; cbn [Z.b2z]; lia|]. apply finish; lia.
Qed.
Theorem div_nearest p q g : grid g -> p <> 0 -> small p -> 0 < q -> small q ->
  exists m e, SFdiv prec emax (dbl p g) (dbl q 0) = S754_finite (p <? 0) (Z.to_pos m) e /\ canon m e /\ e <= g /\
    2 * Z.abs (m * q - Z.abs p * 2 ^ (g - e)) <= q /\ 2 ^ 52 <= m < 2 ^ 53 /\ (m = 2 ^ 52 -> 4 * (m * q - Z.abs p * 2 ^ (g - e)) <= q).
Proof.
  intros Hg P0 Hp Q0 Hq. unfold grid in Hg.
  rewrite (dbl_finite p g P0 Hp), (dbl_finite q 0) by (auto; lia).
  destruct (dbl_canon p g P0 Hp) as (K1 & C1 & E1); [lia|]. destruct (dbl_canon q 0 ltac:(lia) Hq) as (K2 & C2 & E2); [lia|].
  cbn [SFdiv]. unfold SFdiv_core_binary.
  set (e1 := expo p g) in *. set (e2 := expo q 0) in *. set (m1 := mant p) in *. set (m2 := mant q) in *.
  destruct C1 as (M1 & C1 & _), C2 as (M2 & C2 & _).
  assert (D1 : Zdigits2 m1 = 53) by lia. assert (D2 : Zdigits2 m2 = 53) by lia.
  destruct (digits_low m1 M1) as [L1 U1]. destruct (digits_low m2 M2) as [L2 U2]. rewrite D1 in L1, U1. rewrite D2 in L2, U2. change (53 - 1) with 52 in L1, L2.
  rewrite !Z2Pos.id by assumption. rewrite D1, D2, fexp_eq.
  replace (Z.min (Z.max (53 + e1 - (53 + e2) - 53) (-1074)) (e1 - e2)) with (e1 - e2 - 53) by lia.
  cbv zeta. replace (e1 - e2 - (e1 - e2 - 53)) with 53 by lia. cbv iota.
  rewrite Z.shiftl_mul_pow2 by lia.
  assert (DM := Z.div_mod (m1 * 2 ^ 53) m2 ltac:(lia)). assert (MB := Z.mod_pos_bound (m1 * 2 ^ 53) m2 M2).
  unfold Z.div, Z.modulo in DM, MB. destruct (Z.div_eucl (m1 * 2 ^ 53) m2) as [a r].
  assert (P52 := pow2_pos 52 ltac:(lia)). assert (X53 : 2 ^ 53 = 2 * 2 ^ 52) by reflexivity. assert (X54 : 2 ^ 54 = 4 * 2 ^ 52) by reflexivity.
  assert (Ha : 2 ^ 52 <= a < 2 ^ 54).
  { set (B := 2 ^ 52) in *. rewrite X53, X54 in *. split.
    - destruct (Z.lt_ge_cases a B) as [L|L]; [|exact L]. exfalso. assert (m2 * a + r < m2 * B) by nia. nia.
    - destruct (Z.lt_ge_cases a (4 * B)) as [L|L]; [exact L|]. exfalso. nia. }
  destruct (round_nearest (xorb (p <? 0) (q <? 0)) a m2 r (e1 - e2 - 53) MB Ha ltac:(lia)) as (m & k & Hk & Hm & Hn & Hl & ->).
  replace (q <? 0) with false by (symmetry; apply Z.ltb_ge; lia). rewrite xorb_false_r.
  replace (a * m2 + r) with (m1 * 2 ^ 53) in Hn, Hl by lia.
  set (e := e1 - e2 - 53 + k) in *.
  assert (Eg : 0 <= g - e) by (unfold e; lia).
  assert (Hn' : 2 * Z.abs (m * q - Z.abs p * 2 ^ (g - e)) <= q).
  { clear Hl. rewrite E1, E2 in Hn. replace (0 - e2) with (- e2) in Hn by lia. rewrite (Z.abs_eq q) in Hn by lia.
    assert (W := pow2_pos (- e2 + k) ltac:(lia)). set (w := 2 ^ (- e2 + k)) in *.
    replace (m * (q * 2 ^ (- e2) * 2 ^ k) - Z.abs p * 2 ^ (g - e1) * 2 ^ 53) with ((m * q - Z.abs p * 2 ^ (g - e)) * w) in Hn.
    - replace (q * 2 ^ (- e2) * 2 ^ k) with (q * w) in Hn by (unfold w; rewrite Z.pow_add_r by lia; ring).
      rewrite Z.abs_mul, (Z.abs_eq w) in Hn by lia. nia.
    - unfold w. rewrite Z.mul_sub_distr_r. f_equal.
      + rewrite Z.pow_add_r by lia. ring.
      + rewrite <- !Z.mul_assoc, <- !Z.pow_add_r by lia. do 2 f_equal. unfold e. lia. }
  assert (Hl' : m = 2 ^ 52 -> m * q <= Z.abs p * 2 ^ (g - e)).
  { intros E. apply Hl in E. rewrite E1, E2 in E. replace (0 - e2) with (- e2) in E by lia. rewrite (Z.abs_eq q) in E by lia.
    assert (W := pow2_pos (- e2 + k) ltac:(lia)). set (w := 2 ^ (- e2 + k)) in *.
    replace (m * (q * 2 ^ (- e2) * 2 ^ k)) with (m * q * w) in E by (unfold w; rewrite Z.pow_add_r by lia; ring).
    replace (Z.abs p * 2 ^ (g - e1) * 2 ^ 53) with (Z.abs p * 2 ^ (g - e) * w) in E; [apply (Z.mul_le_mono_pos_r _ _ w W), E|].
    unfold w. rewrite <- !Z.mul_assoc, <- !Z.pow_add_r by lia. do 2 f_equal. unfold e. lia. }
  destruct (Z.eqb_spec m (2 ^ 53)) as [->|N].
  - exists (2 ^ 52), (e + 1). split; [reflexivity|]. split; [apply norm53; lia|].
    assert (Lt : e < g).
    { clear - Hn' Hp Q0 Eg. destruct (Z.lt_ge_cases e g) as [L|L]; [exact L|]. exfalso. replace (g - e) with 0 in Hn' by lia. change (2 ^ 0) with 1 in Hn'.
      destruct Hp as [Hp1 Hp2]. set (B := 2 ^ 53) in *. assert (B > 1) by (unfold B; reflexivity). nia. }
    split; [lia|]. replace (g - e) with (g - (e + 1) + 1) in Hn' by lia. rewrite Z.pow_add_r in Hn' by lia. change (2 ^ 1) with 2 in Hn'.
    set (w := 2 ^ (g - (e + 1))) in *. rewrite X53 in Hn'. set (B := 2 ^ 52) in *.
    replace (2 * B * q - Z.abs p * (w * 2)) with (2 * (B * q - Z.abs p * w)) in Hn' by ring. rewrite Z.abs_mul in Hn'. change (Z.abs 2) with 2 in Hn'. clear - Hn' Q0. assert (0 < B) by reflexivity. split; [lia|]. split; [split; [lia|reflexivity]|]. intros _. lia.
  - exists m, e. split; [reflexivity|]. split; [apply norm53; lia|]. split; [lia|]. split; [exact Hn'|]. split; [lia|]. intros E. specialize (Hl' E). clear - Hl' Q0. lia.
Qed.
(** the quotient lies between whole numbers between which the exact one lies *)
Theorem div_between p q g lo hi : grid g -> small p -> 0 < q -> small q -> small lo -> small hi -> lo * q <= p <= hi * q ->
  SFleb (dbl lo g) (SFdiv prec emax (dbl p g) (dbl q 0)) = true /\ SFleb (SFdiv prec emax (dbl p g) (dbl q 0)) (dbl hi g) = true.
Proof.
  intros Hg Hp Q0 Hq Hlo Hhi [A B]. unfold grid in Hg.
  destruct (Z.eq_dec p 0) as [->|P0].
  - rewrite (dbl_finite q 0) by (auto; lia). rewrite dbl_zero. cbn [SFdiv].
    split; [destruct (Z.eq_dec lo 0) as [->|N]; [reflexivity|rewrite (dbl_finite lo g N Hlo) by lia; unfold SFleb; cbn [SFcompare]; destruct (Z.ltb_spec lo 0); [reflexivity|nia]]|].
    destruct (Z.eq_dec hi 0) as [->|N]; [reflexivity|rewrite (dbl_finite hi g N Hhi) by lia; unfold SFleb; cbn [SFcompare]; destruct (Z.ltb_spec hi 0); [nia|reflexivity]].
  - destruct (div_nearest p q g Hg P0 Hp Q0 Hq) as (m & e & -> & C & Le & H & _).
    assert (W := pow2_pos (g - e) ltac:(lia)). assert (Mp : 0 < m) by apply C.
    split.
    + destruct (Z.eq_dec lo 0) as [->|N].
      * rewrite dbl_zero. unfold SFleb; cbn [SFcompare]. destruct (Z.ltb_spec p 0); [nia|reflexivity].
      * unfold SFleb. rewrite (compare_canon lo g (p <? 0) m e N Hlo ltac:(lia) C Le).
        destruct (Z.compare_spec (lo * 2 ^ (g - e)) (if p <? 0 then - m else m)) as [|L|L]; try reflexivity. exfalso.
        set (w := 2 ^ (g - e)) in *. assert (X : lo * q * w <= p * w) by nia. destruct (Z.ltb_spec p 0); [rewrite (Z.abs_neq p) in H by lia|rewrite (Z.abs_eq p) in H by lia].
        -- assert (Y : - m + 1 <= lo * w) by lia. assert (Y2 : (- m + 1) * q <= lo * w * q) by nia. lia.
        -- assert (Y : m + 1 <= lo * w) by lia. assert (Y2 : (m + 1) * q <= lo * w * q) by nia. lia.
    + destruct (Z.eq_dec hi 0) as [->|N].
      * rewrite dbl_zero. unfold SFleb; cbn [SFcompare]. destruct (Z.ltb_spec p 0); [reflexivity|nia].
      * unfold SFleb. rewrite compare_flip, (compare_canon hi g (p <? 0) m e N Hhi ltac:(lia) C Le).
        destruct (Z.compare_spec (hi * 2 ^ (g - e)) (if p <? 0 then - m else m)) as [|L|L]; cbn [CompOpp]; try reflexivity. exfalso.
        set (w := 2 ^ (g - e)) in *. assert (X : p * w <= hi * q * w) by nia. destruct (Z.ltb_spec p 0); [rewrite (Z.abs_neq p) in H by lia|rewrite (Z.abs_eq p) in H by lia].
        -- assert (Y : hi * w <= - m - 1) by lia. assert (Y2 : hi * w * q <= (- m - 1) * q) by nia. lia.
        -- assert (Y : hi * w <= m - 1) by lia. assert (Y2 : hi * w * q <= (m - 1) * q) by nia. lia.
Qed.
