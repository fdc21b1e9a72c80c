(** C109: the unit test of the stand-alone pedometer. *)
From Coq Require Import Reals Lra Lia.
From Verif Require Import Lib NumReal NumFloat LibR Sensors SaPed SaDemo SaPedTest Spec_Sensors Spec_SaPed Pf_Sensors Pf_SaPed Pf_SaPedTest Pf_Radio Ex.
Local Open Scope list_scope.
Local Open Scope R_scope.
Local Notation x2 x := (Some x : RX).

(** the ground truth is the first line with a number other than 0; the samples
    are the lines after it, up to the first that cannot be read *)
Theorem C109_read {F : Type} {NF : Num F} (zs : list (pline F)) h good bad len0 :
  Forall (fun x => pl_num x = 0%Z) zs -> Forall (fun x => pl_data x <> None) good ->
  match bad with [] => True | x :: _ => pl_data x = None end ->
  (pl_num h <> 0%Z -> exists len ms, parse_test 0 len0 (zs ++ h :: good ++ bad) = (pl_num h, len, ms) /\
     (forall v, pl_len h = Some v -> len = v) /\
     map (fun x => Some (st_ts x, s_val (st_data x))) ms = map (@pl_data F) good /\ Forall (fun x => is_acc x = true) ms) /\
  (exists len, parse_test 0 len0 zs = (0%Z, len, [])).
Proof.
  intros Hz Hg Hb. split.
  - intros Hn. rewrite parse_zeros by exact Hz. cbn [parse_test]. rewrite Z.eqb_refl, parse_data by exact Hn.
    eexists _, _. split; [reflexivity|]. split; [intros v ->; reflexivity|].
    rewrite map_app. induction Hg as [|x t Hx _ IH]; cbn [map app read_lines].
    + destruct bad as [|x t]; [split; [reflexivity|apply Forall_nil]|]. cbn [map read_lines]. rewrite Hb. split; [reflexivity|apply Forall_nil].
    + destruct (pl_data x) as [[ts v]|]; [|congruence]. cbn [map]. destruct IH as [IH1 IH2]. split; [f_equal; exact IH1|].
      apply Forall_cons; [reflexivity|exact IH2].
  - exists (last_len len0 zs). rewrite <- (app_nil_r zs) at 1. rewrite parse_zeros by exact Hz. reflexivity.
Qed.
Print Assumptions C109_read.

(** the number reported is that of the example program; without a step the
    mean length is not a number; otherwise it is at most 0.52 (2 g)^(1/4),
    where [g] bounds the magnitudes *)
Theorem C109_report g (ms : list (stamped (sensor RX))) :
  Forall (fun m => is_acc m = true) ms -> Forall (fun m => real_sample m /\ mag_of m <= g) ms ->
  exists n len, ped_report ms = Ok (n, len) /\ saped_count ms = Ok n /\ (n = 0%nat <-> len = None) /\
    (forall L, len = x2 L -> 0 <= L /\ L ^ 4 <= (52 / 100) ^ 4 * (2 * g)).
Proof.
  intros HA H.
  assert (HA' : Forall (fun m : stamped (sensor RX) => s_type (st_data m) = ACCELEROMETER) ms).
  { eapply Forall_impl; [|exact HA]. unfold is_acc. intros m. destruct (s_type (st_data m)); congruence. }
  destruct (@run_bnd g ms ped0 (ped0_bnd g) H) as (p & r & E & HF). unfold ped_report, saped_count.
  rewrite (run_core ped0 HA'), E. cbn [bind].
  destruct (fair_sum HF) as (ls & Es & El & Hl).
  eexists _, _. split; [reflexivity|]. split; [reflexivity|].
  rewrite Es. set (n := List.length (List.concat r)) in *. unfold fofnat. rewrite rx_ofZ.
  clearbody n. destruct n as [|n].
  - cbn [Z.of_nat]. cbn [fdiv num_real rdiv]. rewrite (proj2 (Reqb_true 0 0) eq_refl). split; [split; reflexivity|discriminate].
  - assert (N : IZR (Z.of_nat (S n)) <> 0) by (apply not_0_IZR; lia). rewrite rx_div by exact N.
    split; [split; discriminate|]. intros L EL. assert (L = rsum ls / IZR (Z.of_nat (S n))) as -> by congruence. rewrite <- INR_IZR_INZ, <- El.
    apply mean_fair; [|exact Hl]. intros ->. discriminate El.
Qed.
Print Assumptions C109_report.

(** the checks over the reals: with a true number below 20 the number of steps
    must be exact, and in general be within 5 percent of either number *)
Theorem C109_number l k len b1 b2 n len0 ms : parse_test 0 f0 l = (n, len0, ms) -> ped_report ms = Ok (k, len) ->
  ped_test (l : list (pline RX)) = Ok (b1, b2) ->
  (b1 = true <-> (20 * Z.abs (Z.of_nat k - n) <= Z.of_nat k)%Z /\ (20 * Z.abs (Z.of_nat k - n) <= Z.abs n)%Z) /\
  ((Z.abs n < 20)%Z -> (b1 = true <-> Z.of_nat k = n)).
Proof.
  intros EP ER ET. unfold ped_test in ET. rewrite EP, ER in ET. cbn [bind] in ET. apply Pf_Radio.Ok_inj, pair_equal_spec in ET. destruct ET as [<- _].
  unfold fofnat. rewrite !rx_ofZ. rewrite close_real by lra. rewrite <- minus_IZR. repeat rewrite <- (abs_IZR _).
  assert (Q : forall x y : Z, IZR x <= 5 / 100 * IZR y <-> (20 * x <= y)%Z).
  { intros x y. split; intros Hq; [apply le_IZR; rewrite mult_IZR; lra|apply IZR_le in Hq; rewrite mult_IZR in Hq; lra]. }
  rewrite !Q. split; [lia|]. intros Hn. lia.
Qed.
Print Assumptions C109_number.
(** the length check needs a number *)
Theorem C109_length l k len b1 b2 n len0 ms : parse_test 0 f0 l = (n, x2 len0, ms) -> ped_report ms = Ok (k, len) ->
  ped_test (l : list (pline RX)) = Ok (b1, b2) ->
  (b2 = true <-> exists L, len = x2 L /\ Rabs (L - len0) <= 20 / 100 * Rabs L /\ Rabs (L - len0) <= 20 / 100 * Rabs len0).
Proof.
  intros EP ER ET. unfold ped_test in ET. rewrite EP, ER in ET. cbn [bind] in ET. apply Pf_Radio.Ok_inj, pair_equal_spec in ET. destruct ET as [_ <-].
  destruct len as [L|].
  - rewrite rx_ofZ, close_real by lra. split; [intros H; exists L; auto|intros (L' & E & H); injection E as <-; exact H].
  - assert (Hc : check_close (None : RX) (x2 len0) (fofZ 20) = false).
    { unfold check_close. cbn [fsub fabs feqb fdiv fleb num_real rlift2 rlift1 rcmp rdiv]. cbv zeta.
      match goal with |- (if ?b then _ else _) && _ = _ => destruct b; reflexivity end. }
    rewrite Hc. split; [discriminate|]. intros (L & E & _). discriminate E.
Qed.
Print Assumptions C109_length.

(** a log without a number of steps, in particular a missing one (the
    repository has no folder pedometer/logs): in doubles the test passes its
    check of the number and fails that of the length *)
Theorem C109_missing (zs : list (pline SF)) : Forall (fun x => pl_num x = 0%Z) zs -> @ped_test SF nf zs = Ok (true, false).
Proof.
  intros Hz. unfold ped_test. rewrite <- (app_nil_r zs), (@parse_zeros SF zs Hz (@f0 SF nf) []). cbn [parse_test].
  generalize (@last_len SF (@f0 SF nf) zs) as len. intros len.
  replace (@ped_report SF nf []) with (Ok (0%nat, SpecFloat.S754_nan)) by (vm_compute; reflexivity). cbn [bind].
  replace (@check_close SF nf (@fofnat SF nf 0) (@fofZ SF nf 0) (@fofZ SF nf 5)) with true by (vm_compute; reflexivity).
  replace (@check_close SF nf SpecFloat.S754_nan len (@fofZ SF nf 20)) with false; [reflexivity|].
  destruct len; vm_compute; reflexivity.
Qed.
Print Assumptions C109_missing.

(** a log with one step, and one with an unreadable line *)
Definition ex_line (v t : Z) : pline SF := @mkPline SF t None (Some (t, mkV (@f0 SF nf) (@f0 SF nf) (@fofZ SF nf v))).
Definition ex_log (n : Z) : list (pline SF) :=
  [@mkPline SF 0 None None; @mkPline SF n (Some (@lit SF nf 1 2)) None; ex_line 10 1000; ex_line 10 1700; ex_line 10 2400; ex_line 10 3100;
   ex_line 30 3800; ex_line 10 4500].
Example C109_example : @ped_test SF nf (ex_log 1) = Ok (true, true) /\ @ped_test SF nf (ex_log 2) = Ok (false, true) /\
  @ped_test SF nf (firstn 5 (ex_log 1) ++ [@mkPline SF 0 None None] ++ skipn 5 (ex_log 1)) = Ok (false, false).
Proof. split; [|split]; vm_compute; reflexivity. Qed.
Example C109_example_report : let m := mkSt (mkSensor ACCELEROMETER (mkV (x2 0) (x2 0) (x2 10))) 7%Z in
  is_acc m = true /\ real_sample m /\ mag_of m <= 10.
Proof.
  cbv zeta. split; [reflexivity|]. split; [exists 0, 0, 10; reflexivity|]. unfold mag_of, norm3. cbn [st_data s_val].
  replace (0 * 0 + 0 * 0 + 10 * 10) with (10 * 10) by ring. rewrite sqrt_square; lra.
Qed.
Example C109_example_number : exists b2, ped_test ([] : list (pline RX)) = Ok (true, b2) /\ parse_test 0 f0 ([] : list (pline RX)) = (0%Z, f0, []).
Proof.
  destruct (@C109_report 0 [] ltac:(constructor) ltac:(constructor)) as (n & len & E & E' & _).
  assert (n = 0%nat) by (vm_compute in E'; congruence). subst n.
  assert (ET : ped_test ([] : list (pline RX)) = Ok (check_close (fofnat 0) (fofZ 0) (fofZ 5), check_close len f0 (fofZ 20))).
  { unfold ped_test. cbn [parse_test]. rewrite E. reflexivity. }
  eexists. split; [|reflexivity]. rewrite ET. f_equal. f_equal.
  destruct (@C109_number [] 0 len _ _ 0%Z f0 [] eq_refl E ET) as [H _]. apply H. lia.
Qed.
