(** C117: sums and means of multiples of a power of two in binary64. *)
From Coq Require Import Reals ZArith Lia Lra SpecFloat Permutation.
From Verif Require Import Lib NumFloat NumFin NumExact Preproc Spec_Preproc Pf_Preproc Spec_Mean.
Set Implicit Arguments.
Local Open Scope list_scope.

Section Ints.
Local Open Scope Z_scope.
(** no double is nearer than the rounded quotient, on the finer of two grids *)
Lemma nearest_int m e q A0 y e' f : 0 < q -> 2 * Z.abs (m * q - A0) <= q -> 2 ^ 52 <= m < 2 ^ 53 ->
  (m = 2 ^ 52 -> 4 * (m * q - A0) <= q) -> - 2 ^ 53 < y < 2 ^ 53 -> 0 <= A0 -> f = Z.min e e' ->
  Z.abs (m * 2 ^ (e - f) * q - A0 * 2 ^ (e - f)) <= Z.abs (y * 2 ^ (e' - f) * q - A0 * 2 ^ (e - f)).
Proof.
  intros Q H Hm Hq Hy HA Hf. assert (X53 : 2 ^ 53 = 2 * 2 ^ 52) by reflexivity.
  destruct (Z.le_gt_cases e e') as [L|L].
  - replace f with e by lia. rewrite Z.sub_diag. change (2 ^ 0) with 1. set (Y := y * 2 ^ (e' - e)).
    destruct (Z.eq_dec Y m) as [->|N]; [lia|]. assert (q <= Z.abs (Y * q - m * q)) by (rewrite <- Z.mul_sub_distr_r, Z.abs_mul, (Z.abs_eq q) by lia; nia). lia.
  - replace f with e' by lia. rewrite Z.sub_diag. change (2 ^ 0) with 1. rewrite Z.mul_1_r.
    assert (P := pow2_pos (e - e' - 1) ltac:(lia)). replace (e - e') with (1 + (e - e' - 1)) by lia. rewrite Z.pow_add_r by lia. change (2 ^ 1) with 2.
    set (u := 2 ^ (e - e' - 1)) in *. rewrite X53 in *. set (B := 2 ^ 52) in *. assert (HB : 0 < B) by reflexivity.
    replace (m * (2 * u) * q - A0 * (2 * u)) with ((m * q - A0) * (2 * u)) by ring. rewrite Z.abs_mul, (Z.abs_eq (2 * u)) by lia.
    destruct (Z.eq_dec m B) as [E|N].
    + subst m. specialize (Hq eq_refl). destruct (Z.eq_dec u 1) as [->|U].
      * assert (y * q <= (2 * B - 1) * q) by nia. lia.
      * assert (U2 : 2 <= u) by lia. assert (K : y * q <= B * u * q) by (assert (y <= B * u) by nia; nia).
        assert (K2 : (B * q - A0) * 4 * u <= q * u) by nia.
        assert (K3 : 0 <= B * u * q) by nia. assert (q * u <= B * u * q) by nia.
        assert (K4 : Z.abs (B * q - A0) * (2 * u) = Z.abs ((B * q - A0) * (2 * u))) by (rewrite Z.abs_mul, (Z.abs_eq (2 * u)); lia).
        rewrite K4. replace ((B * q - A0) * (2 * u)) with (2 * (B * u * q) - A0 * (2 * u)) in * by ring.
        assert (K5 : 2 * (2 * (B * u * q) - A0 * (2 * u)) <= q * u) by lia. lia.
    + assert (K : y * q <= (m - 1) * (2 * u) * q) by (assert (y <= (m - 1) * (2 * u)) by nia; nia).
      assert (K2 : 2 * Z.abs (m * q - A0) * u <= q * u) by nia.
      assert (K4 : Z.abs (m * q - A0) * (2 * u) = Z.abs ((m * q - A0) * (2 * u))) by (rewrite Z.abs_mul, (Z.abs_eq (2 * u)); lia).
      replace ((m * q - A0) * (2 * u)) with (2 * (m * u * q) - A0 * (2 * u)) in K4 by ring.
      replace ((m - 1) * (2 * u) * q) with (2 * (m * u * q) - 2 * (q * u)) in K by ring. lia.
Qed.
Lemma valid_small s m e : valid_binary prec emax (S754_finite s m e) = true -> Zpos m < 2 ^ 53.
Proof.
  unfold valid_binary, bounded, canonical_mantissa. intros H. apply andb_prop in H. destruct H as [H1 H2]. apply Zeq_bool_eq in H1.
  rewrite fexp_eq in H1. assert (D := digits_low (Zpos m) ltac:(lia)). cbn [Zdigits2] in D.
  destruct D as [_ D]. apply (Z.lt_le_trans _ _ _ D). apply Z.pow_le_mono_r; lia.
Qed.
Lemma canon_valid s m e : canon m e -> valid_binary prec emax (S754_finite s (Z.to_pos m) e) = true.
Proof.
  intros (Hm & H & He). unfold valid_binary, bounded, canonical_mantissa. apply andb_true_intro. split.
  - apply Zeq_is_eq_bool. rewrite fexp_eq. destruct m as [|p|p]; try lia. cbn [Z.to_pos Zdigits2] in *. exact H.
  - apply Z.leb_le. unfold emax, prec. lia.
Qed.
End Ints.

Section Reals.
Local Open Scope R_scope.
Lemma pw a f : (f <= a)%Z -> powerRZ 2 a = IZR (2 ^ (a - f)) * powerRZ 2 f.
Proof.
  intros H. replace a with ((a - f) + f)%Z at 1 by lia. rewrite powerRZ_add by lra. f_equal.
  destruct (a - f)%Z as [|p|p] eqn:E; [reflexivity| |lia]. rewrite <- (positive_nat_Z p) at 1. rewrite <- pow_powerRZ.
  rewrite pow_IZR. do 2 f_equal. apply positive_nat_Z.
Qed.
Lemma pw_pos a : 0 < powerRZ 2 a.
Proof. apply powerRZ_lt; lra. Qed.
Lemma quotient_nearest p q g : grid g -> small p -> (0 < q)%Z -> small q ->
  nearest (IZR p * powerRZ 2 g / IZR q) (SFdiv prec emax (dbl p g) (dbl q 0)).
Proof.
  intros Hg Hp Q0 Hq. destruct (Z.eq_dec p 0) as [->|P0].
  - rewrite (dbl_finite q 0) by (auto; lia). rewrite dbl_zero. cbn [SFdiv]. split; [split; [reflexivity|exact I]|].
    intros y _. cbn [sf_real]. replace (0 * powerRZ 2 g / IZR q) with 0 by (unfold Rdiv; ring). rewrite Rminus_0_r, Rabs_R0. apply Rabs_pos.
  - destruct (div_nearest p q g Hg P0 Hp Q0 Hq) as (m & e & -> & C & Le & H & Hm & Hl).
    split; [split; [apply canon_valid, C|exact I]|]. intros y [Vy Fy].
    assert (Mp : (0 < m)%Z) by apply C.
    assert (W : exists Y e', sf_real y = IZR Y * powerRZ 2 e' /\ (- 2 ^ 53 < Y < 2 ^ 53)%Z).
    { destruct y as [s|s| |s m' e']; try contradiction.
      - exists 0%Z, e. split; [cbn; ring|]. split; reflexivity.
      - apply valid_small in Vy. exists (if s then Zneg m' else Zpos m'), e'. split; [destruct s; cbn [sf_real]; [change (Zneg m') with (- Zpos m')%Z; rewrite opp_IZR|]; reflexivity|].
        destruct s; change (Zneg m') with (- Zpos m')%Z; lia. }
    destruct W as (Y & e' & -> & HY). cbn [sf_real]. rewrite Z2Pos.id by exact Mp.
    set (f := Z.min e e'). rewrite (@pw e f), (@pw e' f), (@pw g f) by lia.
    set (s := (if (p <? 0)%Z then -1 else 1)%Z). assert (Sp : (p = s * Z.abs p)%Z) by (unfold s; destruct (Z.ltb_spec p 0); lia).
    assert (Ss : (s = 1 \/ s = -1)%Z) by (unfold s; destruct (p <? 0)%Z; auto).
    replace (if (p <? 0)%Z then - IZR m else IZR m) with (IZR (s * m)) by (unfold s; destruct (p <? 0)%Z; rewrite mult_IZR; simpl; ring).
    assert (K := @nearest_int m e q (Z.abs p * 2 ^ (g - e)) (s * Y) e' f Q0 H Hm Hl ltac:(destruct Ss as [-> | ->]; lia) ltac:(assert (T := pow2_pos (g - e) ltac:(lia)); nia) eq_refl).
    rewrite <- (Z.mul_assoc (Z.abs p)), <- Z.pow_add_r in K by lia. replace (g - e + (e - f))%Z with (g - f)%Z in K by lia.
    assert (Qr : 0 < IZR q) by (apply IZR_lt; exact Q0). assert (Fp := pw_pos f).
    assert (R : forall a, IZR a * powerRZ 2 f - IZR p * (IZR (2 ^ (g - f)) * powerRZ 2 f) / IZR q = IZR (a * q - p * 2 ^ (g - f)) * (powerRZ 2 f / IZR q)).
    { intros a. rewrite minus_IZR, !mult_IZR. field. lra. }
    rewrite <- !Rmult_assoc, <- !mult_IZR. 
    replace (IZR (p * 2 ^ (g - f)) * powerRZ 2 f) with (IZR p * (IZR (2 ^ (g - f)) * powerRZ 2 f)) by (rewrite mult_IZR; ring).
    rewrite !R, !Rabs_mult. apply Rmult_le_compat_r; [apply Rabs_pos|]. rewrite <- !abs_IZR. apply IZR_le.
    destruct Ss as [E|E]; rewrite E in *; rewrite ?Z.mul_1_l in *.
    + rewrite Sp. exact K.
    + rewrite Sp. replace (-1 * m * 2 ^ (e - f) * q - -1 * Z.abs p * 2 ^ (g - f))%Z with (- (m * 2 ^ (e - f) * q - Z.abs p * 2 ^ (g - f)))%Z by ring.
      rewrite Z.abs_opp. replace (Y * 2 ^ (e' - f) * q - -1 * Z.abs p * 2 ^ (g - f))%Z with (- (-1 * Y * 2 ^ (e' - f) * q - Z.abs p * 2 ^ (g - f)))%Z by ring.
      rewrite Z.abs_opp. exact K.
Qed.
Lemma multiple_value z g : grid g -> small z -> double (dbl z g) /\ sf_real (dbl z g) = IZR z * powerRZ 2 g.
Proof.
  intros Hg Hz. unfold grid in Hg. destruct (Z.eq_dec z 0) as [->|N].
  - rewrite dbl_zero. split; [split; [reflexivity|exact I]|cbn; ring].
  - rewrite (dbl_finite z g N Hz) by lia. destruct (dbl_canon z g N Hz) as (K & C & E); [lia|]. split; [split; [apply canon_valid, C|exact I]|].
    cbn [sf_real]. assert (Mp : (0 < mant z)%Z) by apply C. rewrite Z2Pos.id by exact Mp. rewrite E.
    rewrite (@pw g (expo z g)) by lia. rewrite mult_IZR.
    destruct (Z.ltb_spec z 0); [rewrite Z.abs_neq by lia; rewrite opp_IZR|rewrite Z.abs_eq by lia]; ring.
Qed.
End Reals.

(** ** Sums and means *)
Section Sums.
Variable t : transc.
#[local] Instance nt : Num SF := num_float t.
Local Open Scope Z_scope.

Lemma zsum_perm l l' : Permutation l l' -> zsum l = zsum l'.
Proof. induction 1; unfold zsum in *; cbn [fold_right]; lia. Qed.
Lemma zsum_app l l' : zsum (l ++ l') = zsum l + zsum l'.
Proof. induction l as [|x l IH]; unfold zsum in *; cbn [fold_right app]; lia. Qed.
Lemma zsum_abs l : Z.abs (zsum l) <= zsum (map Z.abs l) /\ 0 <= zsum (map Z.abs l).
Proof. induction l as [|x l IH]; unfold zsum in *; cbn [fold_right map]; lia. Qed.
Lemma fits_perm A (z : A -> Z) l l' : Permutation l l' -> in_53_bits (map z l) -> in_53_bits (map z l').
Proof.
  intros P [H1 H2]. split.
  - rewrite <- (zsum_perm (Permutation_map Z.abs (Permutation_map z P))). exact H1.
  - rewrite map_length in *. rewrite <- (Permutation_length P). exact H2.
Qed.
Lemma fits_filter A (z : A -> Z) f l : in_53_bits (map z l) -> in_53_bits (map z (filter f l)).
Proof.
  intros [H1 H2]. rewrite map_length in H2. unfold in_53_bits. rewrite map_length.
  assert (H : zsum (map Z.abs (map z (filter f l))) <= zsum (map Z.abs (map z l)) /\ (List.length (filter f l) <= List.length l)%nat).
  { clear. induction l as [|x l IH]; [split; [reflexivity|apply le_n]|]. cbn [filter]. destruct (f x); unfold zsum in *; cbn [map fold_right List.length]; lia. }
  lia.
Qed.
Lemma fits_app A (z : A -> Z) l l' : in_53_bits (map z (l ++ l')) -> in_53_bits (map z l) /\ in_53_bits (map z l').
Proof.
  unfold in_53_bits. rewrite !map_app, zsum_app, app_length. assert (A1 := zsum_abs (map z l)). assert (A2 := zsum_abs (map z l')). lia.
Qed.
Lemma sum_from A (f : A -> SF) (z : A -> Z) g l : grid g -> (forall x, In x l -> is_multiple g (z x) (f x)) ->
  forall s, Z.abs s + zsum (map Z.abs (map z l)) < 2 ^ 53 ->
  fold_left (fun s x => s +! f x) l (dbl s g) = dbl (s + zsum (map z l)) g.
Proof.
  intros Hg H. induction l as [|x l IH]; intros s B; cbn [fold_left map].
  - unfold zsum; cbn. rewrite Z.add_0_r. reflexivity.
  - assert (E := H x (or_introl eq_refl)). unfold is_multiple in E. fold (dbl (z x) g) in E. rewrite E.
    unfold zsum in B; cbn [map fold_right] in B. fold (zsum (map Z.abs (map z l))) in B.
    assert (ZA := zsum_abs (map z l)).
    change (dbl s g +! dbl (z x) g) with (SFadd prec emax (dbl s g) (dbl (z x) g)).
    rewrite add_exact by (auto; unfold small; lia). rewrite IH.
    + unfold zsum; cbn [fold_right]. f_equal. lia.
    + intros y Hy. apply H. right. exact Hy.
    + lia.
Qed.
Lemma sum_exact A (f : A -> SF) (z : A -> Z) g l : unit_ok g -> (forall x, In x l -> is_multiple g (z x) (f x)) -> in_53_bits (map z l) ->
  fsum f l = dbl (zsum (map z l)) g.
Proof.
  intros Hg H [B _]. unfold fsum. change f0 with (dbl 0 0). replace (dbl 0 0) with (dbl 0 g) by (rewrite !dbl_zero; reflexivity).
  rewrite (sum_from f z l Hg H) by lia. reflexivity.
Qed.
Lemma fits_small l : in_53_bits l -> small (zsum l) /\ small (Z.of_nat (List.length l)).
Proof. intros [A B]. assert (C := zsum_abs l). unfold small. lia. Qed.
Lemma mean_value (f : stamped (radio SF) -> SF) (z : stamped (radio SF) -> Z) g l x : unit_ok g -> (forall m, In m l -> is_multiple g (z m) (f m)) -> in_53_bits (map z l) ->
  mean_of f l x -> x = SFdiv prec emax (dbl (zsum (map z l)) g) (dbl (Z.of_nat (List.length l)) 0).
Proof.
  intros Hg H B (l' & P & ->).
  rewrite (@sum_exact _ f z g l' Hg).
  - rewrite <- (zsum_perm (Permutation_map z P)), <- (Permutation_length P). reflexivity.
  - intros m Hm. apply H. apply (Permutation_in _ (Permutation_sym P) Hm).
  - exact (fits_perm z P B).
Qed.
Lemma mean_nearest f z g l x : unit_ok g -> l <> [] -> (forall m : stamped (radio SF), In m l -> is_multiple g (z m) (f m)) -> in_53_bits (map z l) ->
  mean_of f l x -> nearest (exact_mean g (map z l)) x.
Proof.
  intros Hg N H B M. rewrite (@mean_value f z g l x Hg H B M). destruct (fits_small B) as [B1 B2]. unfold exact_mean. rewrite map_length in *.
  apply quotient_nearest; auto. destruct l; [contradiction|cbn [List.length]; lia].
Qed.
Lemma zsum_bounds A (z : A -> Z) lo hi l : (forall m, In m l -> lo <= z m <= hi) ->
  lo * Z.of_nat (List.length l) <= zsum (map z l) <= hi * Z.of_nat (List.length l).
Proof.
  induction l as [|x l IH]; intros H; [cbn; lia|]. assert (I := IH (fun m Hm => H m (or_intror Hm))). assert (X := H x (or_introl eq_refl)).
  unfold zsum in *; cbn [map fold_right List.length]. lia.
Qed.
Lemma mean_between f z g l x lo hi : unit_ok g -> l <> [] -> (forall m : stamped (radio SF), In m l -> is_multiple g (z m) (f m)) -> in_53_bits (map z l) ->
  small lo -> small hi -> (forall m, In m l -> lo <= z m <= hi) ->
  mean_of f l x -> (dbl lo g <=! x) = true /\ (x <=! dbl hi g) = true.
Proof.
  intros Hg N H B Hl Hh R M. rewrite (@mean_value f z g l x Hg H B M). destruct (fits_small B) as [B1 B2]. rewrite map_length in B2.
  assert (Z0 := zsum_bounds z l R). apply div_between; auto. destruct l; [contradiction|cbn [List.length]; lia].
Qed.

Lemma group_ne out (w : list (stamped (radio SF))) o : averages_of out w -> In o out -> of_tx (r_id o) w <> [].
Proof.
  intros (Hs & Hi & Ha) Ho. destruct (proj1 (Hi (r_id o)) (in_map _ _ _ Ho)) as (m & Hm & E).
  assert (Hg : In m (of_tx (r_id o) w)) by (apply filter_In; rewrite E, String.eqb_refl; auto).
  intros E0; rewrite E0 in Hg; destruct Hg.
Qed.
Lemma group_in tx (w : list (stamped (radio SF))) m : In m (of_tx tx w) -> In m w.
Proof. intros H. apply filter_In in H. apply H. Qed.

Lemma averages_order_exact out out' w w' g zr g' zd :
  averages_of out w -> averages_of out' w' -> Permutation w w' ->
  rssi_multiples g zr w -> groups_fit zr w -> dist_multiples g' zd w -> groups_fit zd w ->
  map (fun o => (r_id o, r_rssi o, r_dist o)) out = map (fun o => (r_id o, r_rssi o, r_dist o)) out'.
Proof.
  intros Ha Ha' Hp [Gr Hr] Fr [Gd Hd] Fd. assert (Hb := averages_perm (Permutation_sym Hp) Ha').
  assert (Hid : map (@r_id SF) out = map (@r_id SF) out').
  { apply sorted_unique; [apply Ha|apply Hb|].
    intros x. rewrite (proj1 (proj2 Ha) x), (proj1 (proj2 Hb) x). reflexivity. }
  assert (V : forall out, averages_of out w -> forall o, In o out ->
    r_rssi o = SFdiv prec emax (dbl (zsum (map zr (of_tx (r_id o) w))) g) (dbl (Z.of_nat (List.length (of_tx (r_id o) w))) 0) /\
    r_dist o = SFdiv prec emax (dbl (zsum (map zd (of_tx (r_id o) w))) g') (dbl (Z.of_nat (List.length (of_tx (r_id o) w))) 0)).
  { intros out0 (_ & _ & H) o Ho. destruct (H o Ho) as (M1 & M2 & _). split.
    - exact (@mean_value _ zr g _ _ Gr (fun m Hm => Hr m (group_in _ _ _ Hm)) (Fr _) M1).
    - exact (@mean_value _ zd g' _ _ Gd (fun m Hm => Hd m (group_in _ _ _ Hm)) (Fd _) M2). }
  assert (R1 := V out Ha). assert (R2 := V out' Hb).
  clear Ha Ha' Hb Hp V. revert out' Hid R2.
  induction out as [|o out IH]; intros [|o' out'] Hid R2; try discriminate; [reflexivity|].
  cbn [map] in *. injection Hid as E1 E2. f_equal.
  - destruct (R1 o (or_introl eq_refl)) as (A1 & A2). destruct (R2 o' (or_introl eq_refl)) as (B1 & B2).
    rewrite A1, A2, B1, B2, E1. reflexivity.
  - apply IH; auto; intros z Hz; [apply R1|apply R2]; right; exact Hz.
Qed.

(** ** Histories *)
Lemma plus_zero z g : grid g -> small z -> dbl z g +! f0 = dbl z g.
Proof.
  intros Hg Hz. change f0 with (dbl 0 0). replace (dbl 0 0) with (dbl 0 g) by (rewrite !dbl_zero; reflexivity).
  change (SFadd prec emax (dbl z g) (dbl 0 g) = dbl z g). rewrite add_exact; rewrite ?Z.add_0_r; auto. split; reflexivity.
Qed.
Lemma stored_same g z m : grid g -> small z -> is_multiple g z (r_rssi (st_data m)) -> stored m = m.
Proof.
  intros Hg Hz H. unfold stored. rewrite H at 1. fold (dbl z g). rewrite plus_zero by assumption. unfold dbl. rewrite <- H.
  destruct m as [[ty id r d mi ma] ts]. reflexivity.
Qed.

Definition since_suffix (w : win SF) : Prop := exists p, w_all w = p ++ w_since w.
Lemma win_step_suffix c w o : since_suffix w -> since_suffix (win_step c w o).
Proof.
  intros [p H]. destruct o as [m|s]; cbn [win_step].
  - exists p. cbn. rewrite H, app_assoc. reflexivity.
  - cbv zeta. destruct (_ <? _)%Z; [exists p; exact H|]. destruct (standing_still _ _); [exists p; exact H|]. exists (w_all w). cbn. rewrite app_nil_r. reflexivity.
Qed.
Lemma win_step_all c (w : win SF) o : w_all (win_step c w o) = w_all w ++ added [o].
Proof.
  destruct o as [m|s]; cbn [win_step added flat_map app]; [reflexivity|]. rewrite app_nil_r. cbv zeta.
  destruct (_ <? _)%Z; [reflexivity|]. destruct (standing_still _ _); reflexivity.
Qed.
Lemma content_sub c (w : win SF) : since_suffix w -> exists f p s, w_all w = p ++ s /\ win_content c w = filter f s.
Proof.
  intros [p H]. unfold win_content. destruct (w_drop w) as [d|]; [destruct (_ =? _)%Z|].
  - exists (fun _ => true), p, (w_since w). split; [exact H|]. clear. induction (w_since w) as [|x l IH]; [reflexivity|]. cbn. rewrite <- IH. reflexivity.
  - eexists _, [], (w_all w). split; reflexivity.
  - exists (fun _ => true), [], (w_all w). split; [reflexivity|]. clear. induction (w_all w) as [|x l IH]; [reflexivity|]. cbn. rewrite <- IH. reflexivity.
Qed.
Lemma outs_nearest_from g zr c ops : forall w outs, since_suffix w ->
  rssi_multiples g zr (w_all w ++ added ops) -> in_53_bits (map zr (w_all w ++ added ops)) ->
  outs_ok c w ops outs -> outs_nearest g zr c w ops outs.
Proof.
  induction ops as [|o ops IH]; intros w [|out outs] Hs Hr Hb H; cbn in H |- *; try contradiction; [exact I|].
  destruct H as [H1 H2]. split.
  - destruct o as [m|s]; [exact H1|]. destruct (win_ready c w); [|exact H1].
    destruct (content_sub c Hs) as (f & p & l & E1 & E2). destruct Hr as [Hg Hr].
    assert (Hin : forall m, In m (win_content c w) -> In m (w_all w ++ added (BExtract s :: ops))).
    { intros m Hm. rewrite E2 in Hm. apply filter_In in Hm. rewrite E1. apply in_or_app. left. apply in_or_app. right. apply Hm. }
    assert (Fc : in_53_bits (map zr (win_content c w))).
    { rewrite E2. apply fits_filter. apply fits_app in Hb. destruct Hb as [Hb _]. rewrite E1 in Hb. apply fits_app in Hb. apply Hb. }
    assert (Es : map stored (win_content c w) = win_content c w).
    { rewrite <- map_id. apply map_ext_in. intros m Hm. apply (@stored_same g (zr m)); [exact Hg| |apply Hr, Hin, Hm].
      assert (Q : in_53_bits (map zr (filter (fun _ => true) [m]))).
      { apply in_split in Hm. destruct Hm as (l1 & l2 & E). rewrite E in Fc. apply fits_app in Fc. destruct Fc as [_ Fc].
        change (m :: l2) with ([m] ++ l2) in Fc. apply fits_app in Fc. apply Fc. }
      cbn in Q. apply fits_small in Q. destruct Q as [Q _]. unfold zsum in Q; cbn in Q. rewrite Z.add_0_r in Q. exact Q. }
    rewrite Es in H1. split; [apply H1|]. intros o Ho.
    apply (@mean_nearest (fun m => r_rssi (st_data m)) zr g).
    + exact Hg.
    + exact (group_ne _ H1 Ho).
    + intros m Hm. apply Hr, Hin. exact (group_in _ _ _ Hm).
    + apply fits_filter, Fc.
    + apply H1, Ho.
  - apply IH; auto.
    + apply win_step_suffix, Hs.
    + rewrite win_step_all, <- app_assoc. destruct o; exact Hr.
    + rewrite win_step_all, <- app_assoc. destruct o; exact Hb.
Qed.
End Sums.
