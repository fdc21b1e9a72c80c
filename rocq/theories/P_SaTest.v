(** C105: the unit test of the stand-alone complementary filter. *)
From Coq Require Import Reals Lra Lia.
From Verif Require Import Lib NumReal LibR Sensors SaCf SaDemo SaTest Spec_Sensors Spec_SaCf Spec_Tilt Spec_Settle Spec_SaDemo
  Pf_Settle Pf_Pendulum Pf_SaTest NumFloat Ex.
Local Open Scope list_scope.
Local Open Scope R_scope.
Local Notation x2 x := (Some x : RX).

(** ten seconds at rest with any tilt up to 45 degrees: both checks hold for
    all draws of up to 0.05 m/s^2 and 0.01 rad/s per axis *)
Theorem C105_tilted fuel tm tac th draws : (1000 <= fuel)%nat -> Rabs th <= PI / 4 ->
  List.length draws = 1000%nat -> Forall small_draw draws ->
  exists roll pitch yaw, tilt_run fuel tm tac (fofZ 10) (x2 th) (fofZ 100) draws = Ok (x2 roll, x2 pitch, x2 yaw) /\
    Rabs (pitch - th) < degree /\ Rabs roll < degree.
Proof.
  intros Hf Hth HL HD. unfold tilt_run. rewrite !rx_ofZ.
  replace (f1 /! x2 100) with (x2 (1 / 100)) by (rewrite rx_f1, rx_div by lra; reflexivity).
  change 0%Z with (Z.of_nat 0) at 1. change 1583315232492%Z with (stamp 0). rewrite (@tilt_times_run fuel 1000) by lia. cbn [bind].
  destruct (@tilt_angles_run fuel th ltac:(lia) Hth draws 0 (sacf0 tm tac) HD) as (out & E1 & E2).
  - reflexivity.
  - exists 1, 0, 0, 0. split; [split; [reflexivity|ring]|]. split; [reflexivity|]. unfold level_of. cbn [Nat.pred pow].
    replace (vertical 1 0 0 0) with (uvec 0) by (unfold uvec, vertical, r31, r32, r33; rewrite sin_0, cos_0; f_equal; [f_equal|]; ring).
    eapply Rle_trans; [apply uvec_dist|]. pose proof pi_bounds as P.
    rewrite Rminus_0_l, Rabs_Ropp. unfold td0. lra.
  - intros ->. discriminate HL.
  - rewrite HL in E1, E2. rewrite E1. cbn [bind]. destruct (E2 ltac:(lia)) as (roll & pitch & yaw & E & B). exists roll, pitch, yaw. rewrite E. auto.
Qed.
Print Assumptions C105_tilted.

(** the test itself *)
Theorem C105_passes fuel tm tac draws : (1000 <= fuel)%nat -> List.length draws = 1000%nat -> Forall small_draw draws ->
  static_tilt fuel tm tac (draws : list (vec3 RX * vec3 RX)) = Ok (true, true).
Proof.
  intros Hf HL HD. pose proof PI_RGT_0 as P0.
  destruct (@C105_tilted fuel tm tac 0 draws Hf) as (roll & pitch & yaw & E & B1 & B2); auto; [rewrite Rabs_R0; lra|].
  unfold static_tilt. rewrite rx_f0, E. cbn [bind]. unfold tilt_checks. change (fpi : RX) with (x2 PI).
  rewrite rx_f1, rx_ofZ, rx_mul, rx_div, rx_sub by lra.
  change (fabs (x2 roll)) with (x2 (Rabs roll)). change (fabs (x2 (pitch - 0))) with (x2 (Rabs (pitch - 0))). rewrite !rx_ltb.
  unfold degree in *. rewrite (proj2 (Rltb_true _ _) B1), (proj2 (Rltb_true _ _) B2). reflexivity.
Qed.
Print Assumptions C105_passes.

(** draws at the limit, and a tilt that is not zero *)
Example C105_example : let d := (mkV (x2 (5 / 100)) (x2 (- (5 / 100))) (x2 (5 / 100)), mkV (x2 (5 / 1000)) (x2 (1 / 100)) (x2 (- (1 / 100)))) in
  List.length (repeat d 1000) = 1000%nat /\ Forall small_draw (repeat d 1000) /\ Rabs (PI / 6) <= PI / 4.
Proof.
  cbv zeta. split; [apply repeat_length|]. split.
  - apply Forall_forall. intros d H. apply repeat_spec in H. subst d.
    exists (5 / 100), (- (5 / 100)), (5 / 100), (5 / 1000), (1 / 100), (- (1 / 100)). rewrite !Rabs_Ropp, !Rabs_right by lra.
    split; [reflexivity|]. split; [reflexivity|]. lra.
  - pose proof PI_RGT_0. rewrite Rabs_right; lra.
Qed.
(** in doubles there are also 1000 times, 10 ms apart *)
Definition ex_times : res (list Z) := tilt_times (NF := nf) 1000 0 1583315232492 (@fofZ SF nf 10) (@fdiv SF nf (@f1 SF nf) (@fofZ SF nf 100)).
Example C105_example_double : ex_times = Ok (map stamp (seq 0 1000)).
Proof. vm_compute. reflexivity. Qed.
(** the check can fail: a pitch of two radians *)
Example C105_example_check : tilt_checks (NF := nf) (@f0 SF nf) (@f0 SF nf, @fofZ SF nf 2 , @f0 SF nf) = (true, false).
Proof. vm_compute. reflexivity. Qed.
