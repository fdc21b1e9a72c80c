(** Proofs for the test of the stand-alone pedometer. *)
From Coq Require Import Reals Lra Lia Psatz.
From Verif Require Import Lib NumReal LibR Sensors SaPed SaDemo SaPedTest Spec_Sensors Spec_SaPed Pf_Sensors Pf_SaPed.
Set Implicit Arguments.
Local Open Scope list_scope.
Local Open Scope R_scope.
Local Notation x2 x := (Some x : RX).

(** * Bounded signals *)
Definition real_below (g : R) (m : stamped (sensor RX)) : Prop := real_sample m /\ mag_of m <= g.
Definition val_within (g : R) (x : magnitude RX) : Prop := exists v, rmag x v /\ - g <= v <= g.
Record ped_bnd (g : R) (p : pedometer RX) : Prop := {
  pb_acc : Forall (real_below g) (pd_acc p); pb_mags : Forall (val_within g) (pd_mags p) }.
Lemma mag_of_pos m : 0 <= mag_of m.
Proof.
  unfold mag_of. destruct (s_val (st_data m)) as [[x|] [y|] [z|]]; try lra. unfold norm3. apply sqrt_pos.
Qed.
Lemma below_real g l : Forall (real_below g) l -> Forall real_sample l.
Proof. intros H. eapply Forall_impl; [|exact H]. intros m [A _]. exact A. Qed.
Lemma within_val g l : Forall (val_within g) l -> Forall has_val l.
Proof. intros H. eapply Forall_impl; [|exact H]. intros m (v & A & _). exists v. exact A. Qed.
Lemma mags_bounds g l m : Forall (real_below g) (l ++ [m]) ->
  0 <= rsum (map mag_of (l ++ [m])) <= INR (List.length (map mag_of (l ++ [m]))) * g.
Proof.
  intros H. assert (B : forall x, In x (map mag_of (l ++ [m])) -> 0 <= x <= g).
  { intros x Hx. apply in_map_iff in Hx. destruct Hx as (y & <- & Hy). rewrite Forall_forall in H. destruct (H y Hy) as [_ U].
    pose proof (mag_of_pos y). lra. }
  pose proof (rsum_bounds _ B) as Q. rewrite Rmult_0_r in Q. exact Q.
Qed.
Lemma len_pos (l : list (stamped (sensor RX))) m : 1 <= INR (List.length (map mag_of (l ++ [m]))).
Proof. rewrite map_length, app_length, plus_INR. cbn [List.length INR]. pose proof (pos_INR (List.length l)). lra. Qed.
Lemma update_bnd g p m p1 : ped_bnd g p -> real_below g m -> ped_update p m = Ok p1 -> ped_bnd g p1.
Proof.
  intros [I1 I2] Hm E. destruct (update_ok p m) as (p1' & E1 & Hn & _ & _ & _ & _ & Hna & Ha).
  rewrite E in E1. injection E1 as <-.
  assert (HB : Forall (real_below g) (pd_acc p ++ [m])) by (apply Forall_app; auto).
  constructor.
  - destruct (s_type (st_data m)) eqn:Et; try (destruct (Hna ltac:(discriminate)) as [-> _]; exact I1).
    destruct (Ha eq_refl) as (a & b & -> & Hab & _). apply Forall_app. split; [|auto].
    rewrite Hab in I1. apply Forall_app in I1. tauto.
  - destruct Hn as [->|(x & -> & _ & _ & _ & Hg)]; [exact I2|].
    apply Forall_app. split; [exact I2|]. apply Forall_cons; [|apply Forall_nil].
    destruct (@filtered_real (pd_acc p) m (below_real HB)) as (a & b & EA & EB & _ & _ & _ & _ & E2).
    cbv zeta in E2. rewrite Hg in E2. injection E2 as ->. eexists. split; [reflexivity|].
    assert (HA : Forall (real_below g) (snd a ++ [m])).
    { rewrite EA, <- app_assoc in HB. apply Forall_app in HB. tauto. }
    assert (HB' : Forall (real_below g) (snd b ++ [m])).
    { rewrite EB, <- app_assoc in HB. apply Forall_app in HB. tauto. }
    pose proof (mags_bounds _ _ HA) as [A1 A2]. pose proof (mags_bounds _ _ HB') as [B1 B2].
    pose proof (len_pos (snd a) m) as LA. pose proof (len_pos (snd b) m) as LB. unfold mean.
    set (w := rsum (map mag_of (snd a ++ [m]))) in *. set (n := INR (List.length (map mag_of (snd a ++ [m])))) in *.
    set (v := rsum (map mag_of (snd b ++ [m]))) in *. set (k := INR (List.length (map mag_of (snd b ++ [m])))) in *.
    clearbody w n v k.
    assert (M : 0 <= v / k <= g).
    { split; [apply Rmult_le_pos; [lra|left; apply Rinv_0_lt_compat; lra]|]. apply (Rmult_le_reg_r k); [lra|].
      unfold Rdiv. rewrite Rmult_assoc, Rinv_l by lra. lra. }
    set (u := v / k) in *. clearbody u.
    assert (W : (w + u) / n * n = w + u) by (field; lra). set (q := (w + u) / n) in *. clearbody q.
    split; nra.
Qed.
Lemma length_bnd g cur l : Forall (val_within g) l -> l <> [] ->
  exists L, step_length cur l = x2 L /\ 0 <= L /\ L ^ 4 <= (52 / 100) ^ 4 * (2 * g).
Proof.
  intros H Hne. destruct (@step_length_real cur l Hne (within_val H)) as (win & rest & old & M & n & L & El & _ & _ & (x & Hx & Mx) & (y & Hy & My) & _ & EL & L0 & L4).
  exists L. split; [exact EL|]. split; [exact L0|]. rewrite L4. apply Rmult_le_compat_l; [apply pow_le; lra|].
  assert (V : forall z v, In z (win ++ [old]) -> rmag z v -> - g <= v <= g).
  { intros z v Hz Hv. rewrite Forall_forall in H. destruct (H z) as (v' & A & B).
    - rewrite El. apply in_app_or in Hz. apply in_or_app. destruct Hz as [Hz|[->|[]]]; [auto|right; left; reflexivity].
    - unfold rmag in *. rewrite Hv in A. injection A as ->. exact B. }
  pose proof (V x M Hx Mx). pose proof (V y n Hy My). lra.
Qed.
Definition fair (g : R) (s : step RX) : Prop := exists L, sp_len s = x2 L /\ 0 <= L /\ L ^ 4 <= (52 / 100) ^ 4 * (2 * g).
Lemma step_bnd g p m p2 ss : ped_bnd g p -> real_below g m -> ped_step p m = Ok (p2, ss) -> ped_bnd g p2 /\ Forall (fair g) ss.
Proof.
  intros I Hm E. destruct (ped_step_spec p m) as (p1 & p2' & ss' & E1 & E2 & Hn & Hacc & H).
  rewrite E in E2. injection E2 as <- <-. pose proof (update_bnd I Hm E1) as [J1 J2].
  destruct H as [(_ & -> & ->)|(_ & (l & x & a & b & El1 & El2 & Hl & _) & H)]; [split; [constructor; assumption|apply Forall_nil]|].
  split.
  - constructor; [rewrite Hacc; exact J1|]. rewrite El1, Hl, <- app_assoc in J2. apply Forall_app in J2. rewrite El2. tauto.
  - destruct H as [(-> & _)|(l' & prev & cur & Em & Em1 & _ & _ & -> & _)]; [apply Forall_nil|].
    apply Forall_cons; [|apply Forall_nil]. unfold fair. cbn [sp_len]. apply length_bnd.
    + apply Forall_rev. rewrite <- Em. exact (pb_mags I).
    + intros EE. apply (f_equal (@List.length _)) in EE. rewrite rev_length, app_length in EE. cbn in EE. lia.
Qed.
Lemma run_bnd g ms : forall p, ped_bnd g p -> Forall (real_below g) ms ->
  exists p' r, ped_run p ms = Ok (p', r) /\ Forall (fair g) (List.concat r).
Proof.
  induction ms as [|m t IH]; intros p I H; cbn [ped_run]; [exists p, []; split; [reflexivity|apply Forall_nil]|].
  destruct (ped_step_spec p m) as (p1 & p2 & ss & _ & E2 & _). rewrite E2. cbn [bind].
  destruct (step_bnd I (Forall_inv H) E2) as [I2 F2]. destruct (IH p2 I2 (Forall_inv_tail H)) as (p' & r & -> & F). cbn [bind].
  exists p', (ss :: r). split; [reflexivity|]. cbn [List.concat]. apply Forall_app; split; assumption.
Qed.
Lemma ped0_bnd g : ped_bnd g ped0.
Proof. constructor; apply Forall_nil. Qed.

(** * The mean of fair lengths *)
Lemma fair_sum g ss : Forall (fair g) ss -> exists ls, fsum (@sp_len RX) ss = x2 (rsum ls) /\ List.length ls = List.length ss /\
  Forall (fun L => 0 <= L /\ L ^ 4 <= (52 / 100) ^ 4 * (2 * g)) ls.
Proof.
  intros H. exists (map (fun s => rval (sp_len s)) ss). split; [|split; [apply map_length|]].
  - apply fsum_real. intros s Hs. rewrite Forall_forall in H. destruct (H s Hs) as (L & E & _). rewrite E. reflexivity.
  - apply Forall_forall. intros L HL. apply in_map_iff in HL. destruct HL as (s & <- & Hs). rewrite Forall_forall in H.
    destruct (H s Hs) as (L & E & B). rewrite E. exact B.
Qed.
Lemma pow4_le a b : 0 <= a -> 0 <= b -> a ^ 4 <= b ^ 4 -> a <= b.
Proof.
  intros Ha Hb H. destruct (Rle_dec a b) as [L|N]; [exact L|]. exfalso.
  assert (b * b < a * a) by nra. assert ((b * b) * (b * b) < (a * a) * (a * a)) by nra. cbn in H. lra.
Qed.
Lemma mean_fair B ls : ls <> [] -> Forall (fun L => 0 <= L /\ L ^ 4 <= B) ls ->
  let m := rsum ls / INR (List.length ls) in 0 <= m /\ m ^ 4 <= B.
Proof.
  intros Hne H. cbv zeta.
  assert (HB : 0 <= B). { destruct ls as [|x t]; [congruence|]. destruct (Forall_inv H) as [A1 A2]. pose proof (pow_le x 4 A1). lra. }
  set (b := sqrt (sqrt B)).
  assert (Eb : b ^ 4 = B).
  { unfold b. replace (sqrt (sqrt B) ^ 4) with ((sqrt (sqrt B) * sqrt (sqrt B)) * (sqrt (sqrt B) * sqrt (sqrt B))) by ring.
    rewrite sqrt_sqrt by apply sqrt_pos. apply sqrt_sqrt. exact HB. }
  assert (b0 : 0 <= b) by apply sqrt_pos. clearbody b.
  assert (Q : forall x, In x ls -> 0 <= x <= b).
  { intros x Hx. rewrite Forall_forall in H. destruct (H x Hx) as [A1 A2]. split; [exact A1|]. apply pow4_le; [assumption..|lra]. }
  pose proof (rsum_bounds _ Q) as [S1 S2]. rewrite Rmult_0_r in S1.
  assert (N : 0 < INR (List.length ls)). { apply lt_0_INR. destruct ls; [congruence|cbn; lia]. }
  set (n := INR (List.length ls)) in *. clearbody n.
  assert (M : rsum ls / n * n = rsum ls) by (field; lra). set (m := rsum ls / n) in *. clearbody m.
  assert (0 <= m <= b) by (split; nra). split; [lra|]. rewrite <- Eb. apply pow_incr. lra.
Qed.

(** * The check *)
Lemma close_real a b p : 0 <= p -> check_close (x2 a) (x2 b) (x2 p) = true <->
  Rabs (a - b) <= p / 100 * Rabs a /\ Rabs (a - b) <= p / 100 * Rabs b.
Proof.
  intros Hp. unfold check_close. rewrite rx_sub. change (fabs (x2 (a - b))) with (x2 (Rabs (a - b))).
  change (fabs (x2 a)) with (x2 (Rabs a)). change (fabs (x2 b)) with (x2 (Rabs b)). rewrite rx_f0, !rx_eqb.
  pose proof (Rabs_pos (a - b)) as D0. pose proof (Rabs_pos a) as A0. pose proof (Rabs_pos b) as B0.
  set (d := Rabs (a - b)) in *. clearbody d. set (u := Rabs a) in *. set (v := Rabs b) in *. clearbody u v.
  assert (W : forall x, 0 <= x -> ((if Reqb d 0 then true else if Reqb x 0 then false else (x2 d /! x2 x) <=! (x2 p /! fofZ 100)) = true <-> d <= p / 100 * x)).
  { intros x Hx. destruct (Reqb d 0) eqn:E; [apply Reqb_true in E; subst d; split; [intros _; nra|reflexivity]|]. apply Reqb_false in E.
    destruct (Reqb x 0) eqn:E'; [apply Reqb_true in E'; subst x; split; [discriminate|intros; nra]|]. apply Reqb_false in E'.
    rewrite rx_ofZ, !rx_div, rx_leb, Rleb_true by (assumption || lra).
    assert (Q : d / x * x = d) by (field; assumption). set (q := d / x) in *. clearbody q. split; intros; [nra|]. assert (0 < x) by lra. nra. }
  rewrite andb_true_iff. rewrite (W v B0), (W u A0). tauto.
Qed.

(** * Reading *)
Section Read.
Context {F : Type} {NF : Num F}.
Lemma parse_data n (len : F) l : n <> 0%Z -> parse_test n len l = (n, len, map (@ped_sample F) (read_lines (map (@pl_data F) l))).
Proof.
  intros Hn. induction l as [|x t IH]; [reflexivity|]. cbn [parse_test map read_lines]. rewrite (proj2 (Z.eqb_neq _ _) Hn).
  destruct (pl_data x) as [q|]; [rewrite IH; reflexivity|reflexivity].
Qed.
Definition last_len (len : F) (l : list (pline F)) : F :=
  fold_left (fun a x => match pl_len x with Some v => v | None => a end) l len.
Lemma parse_zeros zs : Forall (fun x => pl_num x = 0%Z) zs -> forall (len : F) l,
  parse_test 0 len (zs ++ l) = parse_test 0 (last_len len zs) l.
Proof.
  induction 1 as [|x t Hx _ IH]; intros len l; cbn [app]; [reflexivity|]. cbn [parse_test last_len fold_left]. rewrite Z.eqb_refl, Hx. apply IH.
Qed.
End Read.
