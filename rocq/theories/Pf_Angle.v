(** Angle normalisation (C14, C15). *)
From Coq Require Import Reals Lra Lia ZArith SpecFloat.
From Verif Require Import Base Lib NumReal NumFloat Sensors.
Set Implicit Arguments.

(** * Reals *)
Section RealAngle.
Local Open Scope R_scope.
Local Notation x2 x := (Some x : RX).

Lemma down_le fuel (x : R) : PI <= x -> mpp_down (S fuel) (x2 x) = mpp_down fuel (x2 (x - 2 * PI)).
Proof.
  intros H. cbn [mpp_down]. change (fpi : RX) with (x2 PI). rewrite rx_leb.
  rewrite (proj2 (Rleb_true _ _) H). reflexivity.
Qed.
Lemma down_stop fuel (x : R) : x < PI -> mpp_down (S fuel) (x2 x) = Ok (x2 x).
Proof.
  intros H. cbn [mpp_down]. change (fpi : RX) with (x2 PI). rewrite rx_leb.
  rewrite (proj2 (Rleb_false _ _) H). reflexivity.
Qed.
Lemma up_lt fuel (x : R) : x < - PI -> mpp_up (S fuel) (x2 x) = mpp_up fuel (x2 (x + 2 * PI)).
Proof.
  intros H. cbn [mpp_up]. change (fpi : RX) with (x2 PI). rewrite rx_opp, rx_ltb.
  rewrite (proj2 (Rltb_true _ _) H). reflexivity.
Qed.
Lemma up_stop fuel (x : R) : - PI <= x -> mpp_up (S fuel) (x2 x) = Ok (x2 x).
Proof.
  intros H. cbn [mpp_up]. change (fpi : RX) with (x2 PI). rewrite rx_opp, rx_ltb.
  rewrite (proj2 (Rltb_false _ _) H). reflexivity.
Qed.

Lemma down_sound fuel : forall x y, mpp_down fuel (x2 x) = Ok y ->
  exists k : nat, y = x2 (x - 2 * PI * INR k) /\ x - 2 * PI * INR k < PI /\ (k = 0%nat \/ - PI <= x - 2 * PI * INR k).
Proof.
  induction fuel as [|n IH]; intros x y H; [discriminate|].
  destruct (Rle_or_lt PI x) as [Hx|Hx].
  - rewrite (down_le _ Hx) in H. apply IH in H. destruct H as (k & -> & H1 & H2). exists (S k).
    rewrite S_INR. replace (x - 2 * PI * (INR k + 1)) with (x - 2 * PI - 2 * PI * INR k) by ring.
    split; [reflexivity|]. split; [exact H1|]. right. destruct H2 as [->|H2]; [cbn; lra|exact H2].
  - rewrite (down_stop _ Hx) in H. injection H as <-. exists 0%nat. cbn [INR].
    replace (x - 2 * PI * 0) with x by ring. auto.
Qed.
Lemma up_sound fuel : forall x y, x < PI -> mpp_up fuel (x2 x) = Ok y ->
  exists k : nat, y = x2 (x + 2 * PI * INR k) /\ - PI <= x + 2 * PI * INR k < PI.
Proof.
  induction fuel as [|n IH]; intros x y Hp H; [discriminate|].
  destruct (Rlt_or_le x (- PI)) as [Hx|Hx].
  - rewrite (up_lt _ Hx) in H. apply IH in H; [|lra]. destruct H as (k & -> & H1). exists (S k).
    rewrite S_INR. replace (x + 2 * PI * (INR k + 1)) with (x + 2 * PI + 2 * PI * INR k) by ring. auto.
  - rewrite (up_stop _ Hx) in H. injection H as <-. exists 0%nat. cbn [INR].
    replace (x + 2 * PI * 0) with x by ring. auto.
Qed.
Lemma to_mpp_sound fuel (x : R) y : to_mpp fuel (x2 x) = Ok y ->
  exists (k : Z) (r : R), y = Some r /\ r = x + 2 * PI * IZR k /\ - PI <= r < PI.
Proof.
  unfold to_mpp. intros H. inv_bind H. apply down_sound in Ha. destruct Ha as (k & -> & H1 & _).
  apply up_sound in Hb; [|exact H1]. destruct Hb as (j & -> & H2).
  exists (Z.of_nat j - Z.of_nat k)%Z, (x - 2 * PI * INR k + 2 * PI * INR j). split; [reflexivity|].
  split; [|exact H2]. rewrite minus_IZR, <- !INR_IZR_INZ. ring.
Qed.

Lemma down_enough n : forall fuel x, (n < fuel)%nat -> x < PI + 2 * PI * INR n -> exists y, mpp_down fuel (x2 x) = Ok y.
Proof.
  induction n as [|n IH]; intros fuel x Hf Hx.
  - destruct fuel; [lia|]. exists (x2 x). apply down_stop. cbn in Hx; lra.
  - destruct fuel; [lia|]. destruct (Rle_or_lt PI x) as [H|H].
    + rewrite (down_le _ H). apply IH; [lia|]. rewrite S_INR in Hx. lra.
    + exists (x2 x). apply down_stop, H.
Qed.
Lemma up_enough n : forall fuel x, (n < fuel)%nat -> - PI - 2 * PI * INR n <= x -> exists y, mpp_up fuel (x2 x) = Ok y.
Proof.
  induction n as [|n IH]; intros fuel x Hf Hx.
  - destruct fuel; [lia|]. exists (x2 x). apply up_stop. cbn in Hx; lra.
  - destruct fuel; [lia|]. destruct (Rlt_or_le x (- PI)) as [H|H].
    + rewrite (up_lt _ H). apply IH; [lia|]. rewrite S_INR in Hx. lra.
    + exists (x2 x). apply up_stop, H.
Qed.
Lemma reach_pi (x : R) : exists n : nat, Rabs x < PI + 2 * PI * INR n.
Proof.
  destruct (archimed (Rabs x)) as [H _]. assert (P := PI2_3_2). assert (A := Rabs_pos x).
  exists (Z.to_nat (up (Rabs x))). rewrite INR_IZR_INZ, Z2Nat.id.
  - unfold PI2 in P. nra.
  - apply le_IZR. lra.
Qed.
Lemma to_mpp_terminates (x : R) : exists n, forall fuel, (n <= fuel)%nat -> exists y, to_mpp fuel (x2 x) = Ok y.
Proof.
  destruct (reach_pi x) as [n Hn]. exists (S n). intros fuel Hf.
  assert (P := PI_RGT_0).
  assert (Hx : - Rabs x <= x <= Rabs x) by (unfold Rabs; destruct (Rcase_abs x); lra).
  destruct (@down_enough n fuel x) as [y Hy]; [lia|lra|]. unfold to_mpp. rewrite Hy. cbn [bind].
  destruct (down_sound _ _ Hy) as (k & -> & H1 & H2).
  apply (@up_enough n); [lia|]. destruct H2 as [->|H2]; [cbn; lra|].
  assert (0 <= INR n) by apply pos_INR. nra.
Qed.
Lemma to_mpp_in_range fuel (x : R) : (0 < fuel)%nat -> - PI <= x < PI -> to_mpp fuel (x2 x) = Ok (x2 x).
Proof.
  intros Hf [H1 H2]. destruct fuel; [lia|]. unfold to_mpp. rewrite (down_stop _ H2). apply (up_stop _ H1).
Qed.
(** the result does not depend on the loop bound *)
Lemma mod_unique (x : R) (k j : Z) : - PI <= x + 2 * PI * IZR k < PI -> - PI <= x + 2 * PI * IZR j < PI -> k = j.
Proof.
  intros H1 H2. assert (P := PI_RGT_0).
  assert (IZR k - IZR j < 1) by nra. assert (IZR j - IZR k < 1) by nra.
  rewrite <- minus_IZR in *. apply (lt_IZR _ 1) in H. apply (lt_IZR _ 1) in H0. lia.
Qed.
Lemma to_mpp_unique n m (x : R) y z : to_mpp n (x2 x) = Ok y -> to_mpp m (x2 x) = Ok z -> y = z.
Proof.
  intros H1 H2. apply to_mpp_sound in H1, H2. destruct H1 as (k & r & -> & E1 & R1), H2 as (j & q & -> & E2 & R2).
  rewrite E1 in *. rewrite E2 in *. rewrite (@mod_unique x k j R1 R2). reflexivity.
Qed.
End RealAngle.

(** * A value that absorbs the subtraction keeps the loop running *)
Section Stuck.
Context {F : Type} {NF : Num F}.
Lemma down_stuck (x : F) : (fpi <=! x) = true -> x -! fofZ 2 *! fpi = x -> forall fuel, mpp_down fuel x = OutOfFuel.
Proof. intros H1 H2. induction fuel as [|n IH]; cbn; [reflexivity|]. rewrite H1, H2. exact IH. Qed.
Lemma to_mpp_stuck (x : F) : (fpi <=! x) = true -> x -! fofZ 2 *! fpi = x -> forall fuel, to_mpp fuel x = OutOfFuel.
Proof. intros H1 H2 fuel. unfold to_mpp. rewrite down_stuck by assumption. reflexivity. Qed.
Lemma up_stuck (x : F) : (x <! fopp fpi) = true -> x +! fofZ 2 *! fpi = x -> forall fuel, mpp_up fuel x = OutOfFuel.
Proof. intros H1 H2. induction fuel as [|n IH]; cbn; [reflexivity|]. rewrite H1, H2. exact IH. Qed.
Lemma to_mpp_stuck_neg (x : F) : (fpi <=! x) = false -> (x <! fopp fpi) = true -> x +! fofZ 2 *! fpi = x ->
  forall fuel, to_mpp fuel x = OutOfFuel.
Proof.
  intros H0 H1 H2 fuel. unfold to_mpp. destruct fuel; [reflexivity|]. cbn [mpp_down]. rewrite H0. cbn [bind].
  apply up_stuck; assumption.
Qed.
End Stuck.

(** * Doubles with an exponent of at least 5 absorb 2*pi *)
Section Absorb.
Local Open Scope Z_scope.

Fixpoint itn A (n : nat) (f : A -> A) (x : A) : A := match n with O => x | S k => f (itn k f x) end.
Lemma iter_pos_nat A (f : A -> A) n : forall x, SpecFloat.iter_pos f n x = itn (Pos.to_nat n) f x.
Proof.
  assert (I : forall k (x : A), itn k f (f x) = f (itn k f x)).
  { induction k as [|k IH]; intros x; [reflexivity|]. cbn. rewrite IH. reflexivity. }
  assert (P : forall a b (x : A), itn a f (itn b f x) = itn (a + b) f x).
  { induction a as [|a IH]; intros b x; [reflexivity|]. cbn. rewrite IH. reflexivity. }
  induction n as [n IH|n IH|]; intros x; cbn [SpecFloat.iter_pos].
  - rewrite !IH, P, I. rewrite Pos2Nat.inj_xI. replace (S (2 * Pos.to_nat n)) with (S (Pos.to_nat n + Pos.to_nat n)) by lia. reflexivity.
  - rewrite !IH, P, Pos2Nat.inj_xO. f_equal. lia.
  - reflexivity.
Qed.
Lemma shr_1_spec M r s : 0 <= M ->
  shr_1 (Build_shr_record M r s) = Build_shr_record (M / 2) (Z.odd M) (r || s).
Proof.
  intros H. cbn. destruct M as [|p|p]; [reflexivity| |lia]. rewrite <- Z.div2_div.
  destruct p; reflexivity.
Qed.
Lemma shr_iter M k : 0 <= M -> itn (S k) shr_1 (Build_shr_record M false false) =
  Build_shr_record (M / 2 ^ Z.of_nat (S k)) (Z.odd (M / 2 ^ Z.of_nat k)) (negb (M mod 2 ^ Z.of_nat k =? 0)).
Proof.
  intros H. induction k as [|k IH].
  - cbn [itn]. rewrite shr_1_spec by exact H. cbn [Z.of_nat]. rewrite Z.pow_0_r, Z.div_1_r, Z.mod_1_r.
    change (Z.of_nat 1) with 1. rewrite Z.pow_1_r. reflexivity.
  - remember (S k) as k'. cbn [itn]. rewrite IH. subst k'.
    assert (0 < 2 ^ Z.of_nat k) by (apply Z.pow_pos_nonneg; lia).
    assert (0 < 2 ^ Z.of_nat (S k)) by (apply Z.pow_pos_nonneg; lia).
    rewrite shr_1_spec by (apply Z.div_pos; lia).
    assert (E : 2 ^ Z.of_nat (S (S k)) = 2 ^ Z.of_nat (S k) * 2).
    { rewrite (Nat2Z.inj_succ (S k)), Z.pow_succ_r by lia. ring. }
    assert (E1 : 2 ^ Z.of_nat (S k) = 2 ^ Z.of_nat k * 2).
    { rewrite (Nat2Z.inj_succ k), Z.pow_succ_r by lia. ring. }
    f_equal.
    + rewrite E, Z.div_div by lia. reflexivity.
    + rewrite E1. rewrite Z.rem_mul_r by lia.
      assert (B := Z.mod_pos_bound M (2 ^ Z.of_nat k) ltac:(lia)).
      rewrite Zmod_odd. destruct (Z.odd _); cbn [orb].
      * symmetry. apply negb_true_iff, Z.eqb_neq. lia.
      * rewrite Z.mul_0_r, Z.add_0_r. reflexivity.
Qed.
Lemma digits_spec n : 2 ^ (Zpos (digits2_pos n) - 1) <= Zpos n < 2 ^ Zpos (digits2_pos n).
Proof.
  induction n as [n IH|n IH|]; cbn [digits2_pos].
  - rewrite Pos2Z.inj_succ. replace (Z.succ (Zpos (digits2_pos n)) - 1) with (Z.succ (Zpos (digits2_pos n) - 1)) by lia.
    rewrite !Z.pow_succ_r by lia. rewrite (Pos2Z.inj_xI n). lia.
  - rewrite Pos2Z.inj_succ. replace (Z.succ (Zpos (digits2_pos n)) - 1) with (Z.succ (Zpos (digits2_pos n) - 1)) by lia.
    rewrite !Z.pow_succ_r by lia. rewrite (Pos2Z.inj_xO n). lia.
  - cbn. lia.
Qed.
Lemma digits_unique n d : 0 < d -> 2 ^ (d - 1) <= Zpos n < 2 ^ d -> Zpos (digits2_pos n) = d.
Proof.
  intros Hd [H1 H2]. destruct (digits_spec n) as [H3 H4].
  assert (A : 2 ^ (d - 1) < 2 ^ Zpos (digits2_pos n)) by lia. apply Z.pow_lt_mono_r_iff in A; [|lia|lia].
  assert (B : 2 ^ (Zpos (digits2_pos n) - 1) < 2 ^ d) by lia. apply Z.pow_lt_mono_r_iff in B; [|lia|lia]. lia.
Qed.

Lemma shr_down M e d n q : 0 < M -> 0 < n -> Zdigits2 M = d ->
  SpecFloat.fexp prec emax (d + e) - e = n ->
  M / 2 ^ (n - 1) = 2 * q + 1 -> M mod 2 ^ (n - 1) <> 0 ->
  shr_fexp prec emax M e loc_Exact = (Build_shr_record q true true, e + n).
Proof.
  intros HM Hn Hd Hf Hq Hr. unfold shr_fexp. rewrite Hd, Hf. destruct n as [|p|p]; [lia| |lia].
  cbn [shr shr_record_of_loc]. rewrite iter_pos_nat. destruct (Pos.to_nat p) as [|k] eqn:Ek; [lia|].
  assert (Ez : Z.of_nat (S k) = Zpos p) by (rewrite <- Ek; apply positive_nat_Z).
  rewrite shr_iter by lia. rewrite Ez.
  replace (Z.of_nat k) with (Zpos p - 1) by lia. rewrite Hq.
  assert (P : 0 < 2 ^ (Zpos p - 1)) by (apply Z.pow_pos_nonneg; lia).
  replace (M / 2 ^ Zpos p) with q.
  - replace (Z.odd (2 * q + 1)) with true by (rewrite Z.add_comm, Z.odd_add_mul_2; reflexivity).
    apply Z.eqb_neq in Hr. rewrite Hr. reflexivity.
  - replace (2 ^ Zpos p) with (2 ^ (Zpos p - 1) * 2).
    + rewrite <- Z.div_div by lia. rewrite Hq. apply (Z.div_unique _ _ _ 1); lia.
    + replace (Zpos p) with (Z.succ (Zpos p - 1)) at 2 by lia. rewrite Z.pow_succ_r by lia. ring.
Qed.
Lemma shr_none M e d : Zdigits2 M = d -> SpecFloat.fexp prec emax (d + e) - e = 0 ->
  shr_fexp prec emax M e loc_Exact = (Build_shr_record M false false, e).
Proof. intros Hd Hf. unfold shr_fexp. rewrite Hd, Hf. reflexivity. Qed.

Lemma fexp_big x : -1021 <= x -> SpecFloat.fexp prec emax x = x - 53.
Proof. intros H. unfold SpecFloat.fexp, SpecFloat.emin, prec, emax. lia. Qed.

(** rounding m*2^k - r for a small r gives m*2^k back *)
Lemma round_absorb s m (k e r M : Z) : 2 ^ 52 <= Zpos m < 2 ^ 53 -> 55 <= k -> -1000 <= e -> e + k <= 971 ->
  0 < r < 2 ^ (k - 2) -> M = Zpos m * 2 ^ k - r ->
  binary_round_aux prec emax s M e loc_Exact = S754_finite s m (e + k).
Proof.
  intros Hm Hk He Hek Hr HM.
  assert (P2 : 0 < 2 ^ (k - 2)) by (apply Z.pow_pos_nonneg; lia).
  assert (P1 : 2 ^ (k - 1) = 2 * 2 ^ (k - 2)).
  { replace (k - 1) with (Z.succ (k - 2)) by lia. apply Z.pow_succ_r. lia. }
  assert (P0 : 2 ^ k = 4 * 2 ^ (k - 2)).
  { replace k with (Z.succ (k - 1)) at 1 by lia. rewrite Z.pow_succ_r by lia. lia. }
  assert (Q52 : 2 ^ (52 + k) = 2 ^ 52 * 2 ^ k) by (rewrite <- Z.pow_add_r by lia; reflexivity).
  assert (Q51 : 2 ^ (51 + k) = 2 ^ 51 * 2 ^ k) by (rewrite <- Z.pow_add_r by lia; reflexivity).
  assert (Q53 : 2 ^ (53 + k) = 2 ^ 53 * 2 ^ k) by (rewrite <- Z.pow_add_r by lia; reflexivity).
  assert (Dm : Zdigits2 (Zpos m) = 53) by (cbn [Zdigits2]; apply digits_unique; [lia|exact Hm]).
  set (T := 2 ^ (k - 2)) in *.
  assert (MP : 0 < M) by (rewrite HM, P0; nia).
  destruct (Z.eq_dec (Zpos m) (2 ^ 52)) as [Em|Em].
  - (* smallest significand: one bit less before rounding *)
    assert (Dd : Zdigits2 M = 52 + k).
    { destruct M as [|p|p]; [lia| |lia]. cbn [Zdigits2]. apply digits_unique; [lia|].
      replace (52 + k - 1) with (51 + k) by lia. rewrite Q51, Q52, HM, Em, P0. lia. }
    unfold binary_round_aux.
    rewrite (@shr_down M e (52 + k) (k - 1) (2 * Zpos m - 1)); [|exact MP|lia|exact Dd| | |].
    + cbn [loc_of_shr_record shr_m round_nearest_even].
      replace (2 * Zpos m - 1 + 1) with (Zpos (xO m)) by lia.
      unfold shr_fexp. replace (Zdigits2 (Zpos m~0)) with 54.
      * rewrite fexp_big by lia. replace (54 + (e + (k - 1)) - 53 - (e + (k - 1))) with 1 by lia.
        cbn [shr SpecFloat.iter_pos shr_record_of_loc shr_1 shr_m].
        replace (e + (k - 1) + 1) with (e + k) by lia.
        assert (L : Zle_bool (e + k) (emax - prec) = true) by (apply Z.leb_le; unfold emax, prec; lia).
        rewrite L. reflexivity.
      * cbn [Zdigits2 digits2_pos]. cbn [Zdigits2] in Dm. lia.
    + rewrite fexp_big by lia. lia.
    + replace (k - 1 - 1) with (k - 2) by lia. fold T. rewrite HM, Em, P0.
      symmetry. apply (Z.div_unique _ _ _ (T - r)); lia.
    + replace (k - 1 - 1) with (k - 2) by lia. fold T. rewrite HM, Em, P0.
      rewrite <- (Z.mod_unique (2 ^ 52 * (4 * T) - r) T (2 ^ 54 - 1) (T - r)) by lia. lia.
  - assert (Dd : Zdigits2 M = 53 + k).
    { destruct M as [|p|p]; [lia| |lia]. cbn [Zdigits2]. apply digits_unique; [lia|].
      replace (53 + k - 1) with (52 + k) by lia. rewrite Q53, Q52, HM, P0. nia. }
    unfold binary_round_aux.
    rewrite (@shr_down M e (53 + k) k (Zpos m - 1)); [|exact MP|lia|exact Dd| | |].
    + cbn [loc_of_shr_record shr_m round_nearest_even].
      replace (Zpos m - 1 + 1) with (Zpos m) by lia.
      rewrite (@shr_none (Zpos m) (e + k) 53); [|exact Dm|].
      * cbn [shr_m].
        assert (L : Zle_bool (e + k) (emax - prec) = true) by (apply Z.leb_le; unfold emax, prec; lia).
        rewrite L. reflexivity.
      * rewrite fexp_big by lia. lia.
    + rewrite fexp_big by lia. lia.
    + rewrite P1, HM, P0. symmetry. apply (Z.div_unique _ _ _ (2 * T - r)); lia.
    + rewrite P1, HM, P0.
      rewrite <- (Z.mod_unique (Zpos m * (4 * T) - r) (2 * T) (2 * Zpos m - 1) (2 * T - r)) by lia. lia.
Qed.

Lemma shift_pos_mul d m : Zpos (shift_pos d m) = Zpos m * 2 ^ Zpos d.
Proof. rewrite Zpower.shift_pos_correct, Z.mul_comm. reflexivity. Qed.

Lemma align_up m e : -50 < e -> Zpos (fst (shl_align m e (-50))) = Zpos m * 2 ^ (e + 50).
Proof.
  intros H. unfold shl_align. destruct (-50 - e) as [|p|p] eqn:E; [lia|lia|]. cbn [fst].
  rewrite shift_pos_mul. f_equal. f_equal. lia.
Qed.
(** 2.0 * M_PI as a double *)
Definition two_pi_m : positive := 7074237752028440.
Lemma two_pi t : @fmul SF (num_float t) (@fofZ SF (num_float t) 2) (@fpi SF (num_float t)) = S754_finite false two_pi_m (-50).
Proof. reflexivity. Qed.

Lemma bounded_big m e : bounded prec emax m e = true -> 5 <= e -> 2 ^ 52 <= Zpos m < 2 ^ 53 /\ e <= 971.
Proof.
  unfold bounded, canonical_mantissa. intros H He. apply andb_prop in H. destruct H as [H1 H2].
  apply Zeq_bool_eq in H1. apply Z.leb_le in H2. unfold emax, prec in H2.
  assert (D := digits_spec m). unfold SpecFloat.fexp, SpecFloat.emin, prec, emax in H1.
  assert (E : Zpos (digits2_pos m) = 53) by lia. rewrite E in D. split; [exact D|lia].
Qed.
Lemma round_pos m e p : 2 ^ 52 <= Zpos m < 2 ^ 53 -> 5 <= e -> e <= 971 ->
  Zpos p = Zpos m * 2 ^ (e + 50) - Zpos two_pi_m ->
  forall s, binary_round prec emax s p (-50) = S754_finite s m e.
Proof.
  intros Hm He He2 Hp s. unfold binary_round.
  assert (P : 2 ^ (e + 50) = 2 ^ 53 * (2 ^ (e - 3))) by (rewrite <- Z.pow_add_r by lia; f_equal; lia).
  assert (T : 2 ^ 2 <= 2 ^ (e - 3)) by (apply Z.pow_le_mono_r; lia).
  assert (D : 103 <= Zpos (digits2_pos p)).
  { destruct (digits_spec p) as [_ H]. assert (B : 2 ^ 103 <= Zpos p) by (rewrite Hp, P; unfold two_pi_m; nia).
    destruct (Z.lt_ge_cases (Zpos (digits2_pos p)) 103) as [L|L]; [|exact L].
    assert (2 ^ Zpos (digits2_pos p) <= 2 ^ 103) by (apply Z.pow_le_mono_r; lia). lia. }
  rewrite fexp_big by lia. unfold shl_align.
  destruct (Zpos (digits2_pos p) + -50 - 53 - -50) as [|q|q] eqn:Eq; [| |lia];
  rewrite (@round_absorb s m (e + 50) (-50) (Zpos two_pi_m)); try exact Hm; try exact Hp; try lia;
    try (f_equal; lia).
  all: replace (e + 50 - 2) with (53 + (e - 5)) by lia; rewrite Z.pow_add_r by lia;
    assert (1 <= 2 ^ (e - 5)) by (change 1 with (2 ^ 0); apply Z.pow_le_mono_r; lia);
    unfold two_pi_m; lia.
Qed.

Lemma absorb t m e : bounded prec emax m e = true -> 5 <= e ->
  @fsub SF (num_float t) (S754_finite false m e) (@fmul SF (num_float t) (@fofZ SF (num_float t) 2) (@fpi SF (num_float t)))
    = S754_finite false m e /\
  @fadd SF (num_float t) (S754_finite true m e) (@fmul SF (num_float t) (@fofZ SF (num_float t) 2) (@fpi SF (num_float t)))
    = S754_finite true m e.
Proof.
  intros Hb He. destruct (bounded_big m Hb He) as [Hm He2]. rewrite two_pi.
  change (@fsub SF (num_float t)) with (SFsub prec emax). change (@fadd SF (num_float t)) with (SFadd prec emax).
  cbn [SFsub SFadd]. replace (Z.min e (-50)) with (-50) by lia.
  assert (A := @align_up m e ltac:(lia)).
  assert (B : fst (shl_align two_pi_m (-50) (-50)) = two_pi_m) by reflexivity. rewrite B.
  unfold cond_Zopp. rewrite A.
  assert (P : 2 ^ (e + 50) = 2 ^ 53 * (2 ^ (e - 3))) by (rewrite <- Z.pow_add_r by lia; f_equal; lia).
  assert (T : 2 ^ 2 <= 2 ^ (e - 3)) by (apply Z.pow_le_mono_r; lia).
  assert (Hpos : 0 < Zpos m * 2 ^ (e + 50) - Zpos two_pi_m) by (rewrite P; unfold two_pi_m; nia).
  replace (- (Zpos m * 2 ^ (e + 50)) + Zpos two_pi_m) with (- (Zpos m * 2 ^ (e + 50) - Zpos two_pi_m)) by ring.
  destruct (Zpos m * 2 ^ (e + 50) - Zpos two_pi_m) as [|p|p] eqn:E; [lia| |lia].
  cbn [binary_normalize Z.opp]. split; apply round_pos; auto.
Qed.
Lemma big_stuck t s m e fuel : bounded prec emax m e = true -> 5 <= e ->
  @to_mpp SF (num_float t) fuel (S754_finite s m e) = OutOfFuel.
Proof.
  intros Hb He. destruct (@absorb t m e Hb He) as [H1 H2].
  assert (EP : @fpi SF (num_float t) = S754_finite false 7074237752028440 (-51)) by reflexivity.
  assert (C : (-51 ?= e) = Lt) by (apply Z.compare_lt_iff; lia).
  assert (C' : (e ?= -51) = Gt) by (apply Z.compare_gt_iff; lia).
  destruct s.
  - apply to_mpp_stuck_neg; [| |exact H2]; rewrite EP.
    + reflexivity.
    + unfold fltb, num_float, SFltb, fopp, SFopp, SFcompare. cbn [negb]. rewrite C'. reflexivity.
  - apply to_mpp_stuck; [|exact H1]. rewrite EP.
    unfold fleb, num_float, SFleb, SFcompare. rewrite C. reflexivity.
Qed.
Lemma inf_stuck t s fuel : @to_mpp SF (num_float t) fuel (S754_infinity s) = OutOfFuel.
Proof.
  destruct s; [apply (@to_mpp_stuck_neg SF (num_float t)); reflexivity|apply (@to_mpp_stuck SF (num_float t)); reflexivity].
Qed.
End Absorb.

(** * The client *)
From Verif Require Import Client Spec_Preproc Spec_Client Pf_Preproc Pf_Client Pf_ClientInv Pf_ClientThrow.
Section Orient.
Context {SO : Sorter}.
Local Open Scope R_scope.
Lemma orient_range e (k : config RX) c m c' o (r : R) : nav_step e k c m = Ok (c', o) -> o_orient o = Some (Some r) ->
  - PI <= r < PI.
Proof.
  intros H Ho. destruct (nav_step_inv _ _ _ _ H) as (pre & sf & mi & pre1 & rs & det & lev & lid & outd & outp & oc & ns
    & H1 & H2 & H3 & H4 & H5 & H6 & H7 & H8 & ->). clear - H8 Ho. unfold output in H8.
  destruct (p_empty _); [injection H8 as <-; discriminate|].
  inv_bind H8. destruct a as [[la lo] al]. inv_bind Hb. injection Hb0 as <-. cbn in Ho. injection Ho as ->.
  destruct (oc_azim oc) as [x|].
  - apply to_mpp_sound in Ha0. destruct Ha0 as (j & q & E & _ & Hq). injection E as ->. exact Hq.
  - exfalso. unfold to_mpp in Ha0. destruct (e_fuel e); cbn in Ha0; discriminate.
Qed.
Lemma orient_history e (k : config RX) bs c c' os : navigate_all e k c bs = Ok (c', os) ->
  Forall (Forall (fun o => forall r, o_orient o = Some (Some r) -> - PI <= r < PI)) os.
Proof.
  intros H. refine (proj2 (@history_ind RX _ SO e k (fun _ => True) _ _ _ bs c c' os I H)); [auto|].
  intros c0 m c1 o _ Hs. split; [exact I|]. intros r. apply (orient_range _ _ _ _ Hs).
Qed.
End Orient.

Section Hang.
Context {F : Type} {NF : Num F} {SO : Sorter}.
(** the whole call hangs when the azimuth handed to the output does *)
Lemma output_hang e k p st (az : F) rs : p_empty p = false -> p_level p = ""%string \/ s_altitude (cf_set k) = false /\ has_level (cf_col k) (p_level p) = true ->
  (exists l, get_level (cf_col k) (p_level p) = Ok l) ->
  to_mpp (e_fuel e) az = OutOfFuel -> output e k p st az rs = OutOfFuel.
Proof.
  intros Hp Hl [l El] Hm. unfold output. rewrite Hp. destruct (String.eqb _ _) eqn:E.
  - cbn [bind]. rewrite Hm. reflexivity.
  - destruct Hl as [Hl|[Hl _]]; [apply String.eqb_neq in E; congruence|].
    rewrite El, Hl. cbn [bind]. rewrite Hm. reflexivity.
Qed.
(** an outdoor fix while no level is detected takes the device azimuth as it is *)
Lemma step_hang e k c m pre sf mi pre1 rs det lev lid outd outp :
  update_measurements (cf_set k) (cf_col k) (c_pre c) m = Ok pre ->
  sf_step (e_fuel e) (cf_set k) (c_sf c) (pp_sensor pre) (pp_cur pre) = Ok (sf, mi) ->
  extract_radio (cf_set k) (cf_buf k) (cf_col k) pre (mi_lastTs mi) = Ok (pre1, rs) ->
  detect k rs = Ok det ->
  level_step (s_baro (cf_set k)) (c_lev c) det (pp_sensor pre) = (lev, lid) ->
  outdoor_position (cf_set k) (cf_col k) (c_outd c) (pp_cur pre) (pp_sensor pre) (pp_nmea pre) (c_flag c) = Ok (outd, outp) ->
  has_level (cf_col k) (drop_level (cf_set k) (pp_cur pre) (pp_signal pre) (mi_lastTs mi) lid) = false ->
  p_empty outp = false -> s_altitude (cf_set k) = false -> has_level (cf_col k) (p_level outp) = true ->
  (exists l, get_level (cf_col k) (p_level outp) = Ok l) ->
  to_mpp (e_fuel e) (mi_azim mi) = OutOfFuel ->
  nav_step e k c m = OutOfFuel.
Proof.
  intros H1 H2 H3 H4 H5 H6 H7 Hp Ha Hl Hg Hm. unfold nav_step. rewrite H1. cbn [bind]. rewrite H2. cbn [bind].
  rewrite H3. cbn [bind]. rewrite H4. cbn [bind]. rewrite H5, H6. cbn [bind].
  unfold locate. rewrite H7, Hp. cbn [negb bind oc_pos oc_stat oc_azim].
  rewrite output_hang; [reflexivity|exact Hp|right; auto|exact Hg|exact Hm].
Qed.
End Hang.

(** * Reaching the loop from a fresh client *)
Section Fresh.
Context {F : Type} {NF : Num F} {SO : Sorter}.
Record idle (k : config F) (c : client F) : Prop := mkIdle {
  id_buf : b_ms (pp_buf (c_pre c)) = []; id_lev : lh_cur (le_hist (c_lev c)) = ""%string;
  id_outd : p_empty (ou_last (c_outd c)) = true; id_pos : p_empty (c_pos c) = true;
  id_mags : pd_mags (sf_ped (c_sf c)) = [] }.
(** settings of the witness: GNSS accepted anywhere, transmitter levels, no
    barometer, no altitude, no sigma filter, device azimuth *)
Record plain (s : settings F) : Prop := mkPlain {
  pl_rm : use_rm_level s = false; pl_baro : s_baro s = false; pl_alt : s_altitude s = false;
  pl_out : s_gpsoutside s = true; pl_sig : s_sigma s = false; pl_az : s_calcaz s = false }.

Lemma ssort_nil A lt : ssort (A := A) lt [] = [].
Proof. apply Permutation.Permutation_nil. apply ssort_perm. repeat split; intros a; intros; contradiction. Qed.
Lemma extract_idle s bc (col : collector F) p ls : b_ms (pp_buf p) = [] ->
  exists p', extract_radio s bc col p ls = Ok (p', []) /\ b_ms (pp_buf p') = [] /\ pp_cur p' = pp_cur p /\
    pp_signal p' = pp_signal p /\ pp_sensor p' = pp_sensor p /\ pp_nmea p' = pp_nmea p.
Proof.
  intros H. unfold extract_radio, buffer_extract. cbv zeta. rewrite H.
  assert (C : closest_aps s (@nil (radio F)) = Ok []).
  { unfold closest_aps. destruct (s_closest s); [|reflexivity]. cbn [rev]. unfold sort_res. cbn. rewrite ssort_nil. cbn.
    reflexivity. }
  rewrite !ssort_nil. cbn [runs map drop_old].
  destruct (_ <? _)%Z; [|destruct (_ && _); [|destruct (_ =? _)%Z]]; rewrite C; cbn [bind mapM];
    eexists; (split; [reflexivity|]); repeat split; cbn; rewrite ?ssort_nil; reflexivity.
Qed.
Lemma detect_idle k : use_rm_level (cf_set k) = false -> detect k (@nil (radio F)) = Ok ""%string.
Proof.
  intros H. unfold detect. rewrite H. unfold detect_tx.
  induction (col_levels (cf_col k)) as [|l ls IH]; [reflexivity|]. cbn [fold_left bind]. exact IH.
Qed.
Lemma ped_idle (p : pedometer F) m : pd_mags p = [] -> s_type (st_data m) <> ACCELEROMETER ->
  exists p', ped_update p m = Ok p' /\ pd_mags p' = [] /\ ped_steps p' = Ok (p', []).
Proof.
  intros H Ht. unfold ped_update. destruct (s_type (st_data m)); try congruence;
    (eexists; split; [reflexivity|]; cbn [pd_mags]; split; [exact H|]; unfold ped_steps; cbn [pd_mags]; rewrite H; reflexivity).
Qed.
Lemma sf_idle fuel s (sf : sfusion F) m ts : pd_mags (sf_ped sf) = [] -> s_type (st_data m) <> ACCELEROMETER ->
  s_type (st_data m) <> MAGNETOMETER -> s_calcaz s = false ->
  exists sf' mi, sf_step fuel s sf m ts = Ok (sf', mi) /\ pd_mags (sf_ped sf') = [] /\ mi_lastTs mi = 0%Z /\
    cf_update fuel (cf_conf s) (sf_cf sf) m = Ok (sf_cf sf') /\
    mi_azim mi = (if azimuth_outdated (cf_conf s) (sf_cf sf') then f0 else cf_devaz (sf_cf sf')).
Proof.
  intros Hp Ha Hm Hc. unfold sf_step. destruct (ped_idle _ _ Hp Ha) as (p' & -> & Hp' & E). cbn [bind]. rewrite E. cbn [bind].
  assert (G : exists cf, cf_update fuel (cf_conf s) (sf_cf sf) m = Ok cf).
  { unfold cf_update. destruct (s_type (st_data m)); try congruence; eexists; reflexivity. }
  destruct G as (cf & G). rewrite G. cbn [bind]. rewrite Hc.
  destruct (azimuth_outdated _ cf) eqn:Eo; cbn [negb]; do 2 eexists; (split; [reflexivity|]); cbn [sf_ped sf_cf mi_lastTs mi_azim];
    rewrite Eo; auto.
Qed.
Lemma outdoor_idle s (col : collector F) o ts m n fl : p_empty (ou_last o) = true -> s_type (st_data m) <> LOCATION ->
  exists o' p, outdoor_position s col o ts m n fl = Ok (o', p) /\ p_empty (ou_last o') = true /\ p_empty p = true.
Proof.
  intros Ho Ht. unfold outdoor_position.
  assert (E : gps_of s m = None) by (unfold gps_of; destruct (s_type (st_data m)); congruence).
  rewrite E. cbv zeta. destruct (fl || _); destruct (_ <! _); do 2 eexists; (split; [reflexivity|]); cbn; auto.
Qed.

(** a measurement that carries no radio, step, magnetic or GNSS data *)
Definition quiet (c : client F) (m : measurement F) : Prop :=
  match st_data m with
  | MRadio _ => False
  | MSensor d => s_type d <> ACCELEROMETER /\ s_type d <> MAGNETOMETER /\ s_type d <> LOCATION
  | MNmea _ => let t := s_type (st_data (pp_sensor (c_pre c))) in
      t <> ACCELEROMETER /\ t <> MAGNETOMETER /\ t <> LOCATION
  end.
Lemma quiet_step e k c m : plain (cf_set k) -> has_level (cf_col k) "" = false -> idle k c -> quiet c m ->
  exists c' o, nav_step e k c m = Ok (c', o) /\ idle k c' /\
    pp_sensor (c_pre c') = match st_data m with MSensor d => mkSt d (st_ts m) | _ => pp_sensor (c_pre c) end /\
    pp_nmea (c_pre c') = match st_data m with MNmea d => mkSt d (st_ts m) | _ => pp_nmea (c_pre c) end /\
    cf_update (e_fuel e) (cf_conf (cf_set k)) (sf_cf (c_sf c)) (pp_sensor (c_pre c')) = Ok (sf_cf (c_sf c')) /\
    c_outd c' = c_outd c' /\ c_flag c' = false.
Proof.
  intros Hpl Hl I Hq. destruct I as [I1 I2 I3 I4 I5].
  assert (U : exists pre, update_measurements (cf_set k) (cf_col k) (c_pre c) m = Ok pre /\
    pp_buf pre = pp_buf (c_pre c) /\
    pp_sensor pre = match st_data m with MSensor d => mkSt d (st_ts m) | _ => pp_sensor (c_pre c) end /\
    pp_nmea pre = match st_data m with MNmea d => mkSt d (st_ts m) | _ => pp_nmea (c_pre c) end /\
    s_type (st_data (pp_sensor pre)) <> ACCELEROMETER /\ s_type (st_data (pp_sensor pre)) <> MAGNETOMETER /\
    s_type (st_data (pp_sensor pre)) <> LOCATION).
  { unfold update_measurements, quiet in *. destruct (st_data m) as [r|d|d]; [destruct Hq| |];
      (eexists; split; [reflexivity|]); cbn; repeat split; try apply Hq. }
  destruct U as (pre & U1 & U2 & U3 & U4 & T1 & T2 & T3).
  destruct (@sf_idle (e_fuel e) (cf_set k) (c_sf c) (pp_sensor pre) (pp_cur pre) I5 T1 T2 (pl_az Hpl)) as (sf & mi & S1 & S2 & S3 & S4 & S5).
  destruct (extract_idle (cf_set k) (cf_buf k) (cf_col k) pre (mi_lastTs mi)) as (pre1 & X1 & X2 & X3 & X4 & X5 & X6).
  { rewrite U2; exact I1. }
  destruct (outdoor_idle (cf_set k) (cf_col k) (c_outd c) (pp_cur pre) (pp_sensor pre) (pp_nmea pre) (c_flag c) I3 T3)
    as (outd & outp & O1 & O2 & O3).
  unfold nav_step. rewrite U1. cbn [bind]. rewrite S1. cbn [bind]. rewrite X1. cbn [bind].
  rewrite (detect_idle _ (pl_rm Hpl)). cbn [bind]. rewrite (pl_baro Hpl). unfold level_step.
  unfold hist_step. cbn [String.eqb]. rewrite O1. cbn [bind].
  assert (D : drop_level (cf_set k) (pp_cur pre) (pp_signal pre) (mi_lastTs mi) (lh_cur (le_hist (c_lev c))) = ""%string).
  { unfold drop_level. rewrite I2. repeat (match goal with |- context [if ?b then _ else _] => destruct b end); reflexivity. }
  rewrite D. unfold locate. rewrite Hl, O3. cbn [negb bind oc_pos oc_stat oc_azim oc_post]. unfold output. rewrite I4. cbn [bind].
  do 2 eexists. split; [reflexivity|]. split; [constructor; cbn; auto|]. cbn [c_pre c_sf c_flag oc_flag].
  rewrite X5, X6, U3, U4. repeat split; auto. rewrite <- U3. exact S4.
Qed.

Lemma hang_reachable e k g (x la lo dev : F) (ts : Z) : plain (cf_set k) -> wf_collector (cf_col k) ->
  has_level (cf_col k) "" = false -> col_levels (cf_col k) <> [] ->
  (fpi <=! x) = true -> x -! fofZ 2 *! fpi = x ->
  (s_azlife (cf_set k) <! (fofZ 0 /! fofZ 1000)) = false -> ts <> (-1)%Z ->
  navigate_all e k (client0 g (cf_set k))
    [[mkSt (MSensor (mkSensor ORIENTATION (mkV x x x))) ts; mkSt (MNmea (mkNmea 0 0)) ts;
      mkSt (MSensor (mkSensor LOCATION (mkV la lo dev))) ts]] = OutOfFuel.
Proof.
  intros Hpl Hw Hl Hne Hx1 Hx2 Haz Hts.
  set (m1 := mkSt _ ts : measurement F). set (m2 := mkSt (MNmea (mkNmea 0 0)) ts : measurement F).
  set (m3 := mkSt (MSensor (mkSensor LOCATION _)) ts : measurement F).
  cbn [navigate_all]. rewrite navigate_process by discriminate.
  rewrite accepted_sorted by (unfold time_sorted; cbn; repeat constructor; lia). cbn [process].
  set (c0 := clear_states (client0 g (cf_set k))).
  assert (I0 : idle k c0) by (constructor; reflexivity).
  destruct (@quiet_step e k c0 m1 Hpl Hl I0) as (c1 & o1 & -> & I1 & S1 & N1 & C1 & _ & _).
  { cbn. repeat split; discriminate. }
  cbn [bind]. destruct (@quiet_step e k c1 m2 Hpl Hl I1) as (c2 & o2 & -> & I2 & S2 & N2 & C2 & _ & Fl).
  { cbn. rewrite S1. cbn. repeat split; discriminate. }
  cbn [bind]. cbn in S1, S2, N2. rewrite S2, S1 in C2. rewrite S1 in C1. cbn in C1, C2.
  injection C1 as C1. injection C2 as C2.
  (* the GNSS fix *)
  destruct I2 as [J1 J2 J3 J4 J5].
  assert (U : update_measurements (cf_set k) (cf_col k) (c_pre c2) m3 =
    Ok (mkPre (pp_buf (c_pre c2)) ts (pp_signal (c_pre c2)) (mkSt (mkSensor LOCATION (mkV la lo dev)) ts) (pp_nmea (c_pre c2)))) by reflexivity.
  set (pre := mkPre _ _ _ _ _) in U.
  destruct (@sf_idle (e_fuel e) (cf_set k) (c_sf c2) (pp_sensor pre) (pp_cur pre) J5) as (sf & mi & E1 & E2 & E3 & E4 & E5);
    [discriminate|discriminate|apply (pl_az Hpl)|].
  destruct (extract_idle (cf_set k) (cf_buf k) (cf_col k) pre (mi_lastTs mi) J1) as (pre1 & X1 & _).
  destruct (col_levels (cf_col k)) as [|l0 ls] eqn:El; [congruence|].
  assert (O : exists outd outp, outdoor_position (cf_set k) (cf_col k) (c_outd c2) (pp_cur pre) (pp_sensor pre) (pp_nmea pre) (c_flag c2)
    = Ok (outd, outp) /\ p_empty outp = false /\ p_level outp = l_id l0).
  { unfold outdoor_position. cbn [gps_of pp_sensor pre st_data s_type s_val vx vy vz]. rewrite El. cbn [find].
    assert (B : gps_on_level (cf_set k) la lo l0 = true) by (unfold gps_on_level; rewrite (pl_out Hpl); apply orb_true_r).
    rewrite B, (pl_sig Hpl). rewrite andb_false_r. cbn [bind negb orb]. cbn [pp_nmea pre]. rewrite N2. cbn.
    do 2 eexists. split; [reflexivity|]. auto. }
  destruct O as (outd & outp & O1 & O2 & O3).
  assert (Gl : has_level (cf_col k) (l_id l0) = true /\ get_level (cf_col k) (l_id l0) = Ok l0).
  { apply get_level_wf; [exact Hw|]. rewrite El. left; reflexivity. }
  rewrite (@step_hang _ _ _ e k c2 m3 pre sf mi pre1 [] ""%string (mkLev (le_hist (c_lev c2)) (le_baro (c_lev c2))) ""%string outd outp);
    [reflexivity|exact U|exact E1|exact X1|apply detect_idle, (pl_rm Hpl)| |exact O1| |exact O2|apply (pl_alt Hpl)|rewrite O3; apply Gl|rewrite O3; exists l0; apply Gl|].
  - rewrite (pl_baro Hpl). unfold level_step, hist_step. cbn [String.eqb]. rewrite J2. reflexivity.
  - assert (D : drop_level (cf_set k) (pp_cur pre) (pp_signal pre) (mi_lastTs mi) "" = ""%string).
    { unfold drop_level. repeat (match goal with |- context [if ?b then _ else _] => destruct b end); reflexivity. }
    rewrite D. exact Hl.
  - assert (Ez : mi_azim mi = x).
    { rewrite E5. cbn in E4. injection E4 as <-. rewrite <- C2, <- C1. unfold azimuth_outdated. cbn [cf_cur cf_devts cf_devaz cf_conf k_life vx].
      rewrite Z.sub_diag, Haz. cbn [orb]. apply Z.eqb_neq in Hts. rewrite Hts. reflexivity. }
    rewrite Ez. apply to_mpp_stuck; assumption.
Qed.
End Fresh.

Lemma call_hangs (t : transc) {SO : Sorter} (e : env SF) (s : settings SF) (gs : list (geolevel SF))
    (k : config SF) (g : garbage SF) (m : positive) (ex ts : Z) (la lo dev : SF) :
  @built SF (num_float t) SO s gs k -> NoDup (map (@gl_id SF) gs) -> ~ In ""%string (map (@gl_id SF) gs) -> gs <> [] ->
  @plain SF s -> SFltb (s_azlife s) (S754_zero false) = false ->
  bounded prec emax m ex = true -> (5 <= ex)%Z -> ts <> (-1)%Z ->
  let x := S754_finite false m ex in
  @navigate_all SF (num_float t) SO e k (@client0 SF (num_float t) g s)
    [[mkSt (MSensor (mkSensor ORIENTATION (mkV x x x))) ts; mkSt (MNmea (mkNmea 0 0)) ts;
      mkSt (MSensor (mkSensor LOCATION (mkV la lo dev))) ts]] = OutOfFuel.
Proof.
  intros Hb Hn He Hg Hp Haz Hm Hex Hts x.
  destruct (@built_sound SF (num_float t) SO s gs k Hb Hn He) as [S <-].
  assert (EP : @fpi SF (num_float t) = S754_finite false 7074237752028440 (-51)) by reflexivity.
  assert (C : (-51 ?= ex)%Z = Lt) by (apply Z.compare_lt_iff; lia).
  eapply (@hang_reachable SF (num_float t) SO); try assumption; try apply S.
  - intros X. destruct Hb as (c & Hc & Hk). 
    assert (Ek : cf_col k = c).
    { unfold mk_config in Hk. inv_bind Hk. inv_bind Hb. inv_bind Hb0. inv_bind Hb. injection Hb0 as <-. reflexivity. }
    rewrite Ek in X. destruct gs as [|g0 gs]; [congruence|].
    unfold add_geo_levels in Hc. cbn [fold_left bind] in Hc.
    destruct (add_geo_level col0 g0) as [c1| | |] eqn:E1;
      try (exfalso; eapply (fold_throw (@add_geo_level SF (num_float t)) gs); [|exact Hc]; discriminate).
    assert (G : forall gs (c1 c2 : collector SF), col_levels c1 <> [] ->
      fold_left (fun acc g => y <- acc ;; @add_geo_level SF (num_float t) y g) gs (Ok c1) = Ok c2 -> col_levels c2 <> []).
    { clear. induction gs as [|g gs IH]; intros c1 c2 H1 H2; [injection H2 as <-; exact H1|].
      cbn [fold_left bind] in H2. destruct (add_geo_level c1 g) as [c3| | |] eqn:E;
        try (exfalso; eapply (fold_throw (@add_geo_level SF (num_float t)) gs); [|exact H2]; discriminate).
      eapply IH; [|exact H2]. unfold add_geo_level in E. inv_bind E. injection Hb as <-. cbn. intros Y. apply app_eq_nil in Y. destruct Y; discriminate. }
    apply (G gs c1 c); [|exact Hc|exact X].
    unfold add_geo_level in E1. inv_bind E1. injection Hb as <-. cbn. discriminate.
  - unfold x. rewrite EP. unfold fleb, num_float, SFleb, SFcompare. rewrite C. reflexivity.
  - apply (@absorb t m ex Hm Hex).
Qed.
