(** Lemmas for C111: what positions of one time do to the least-squares smoother. *)
From Coq Require Import Reals Lra Lia.
From Verif Require Import Base NumReal LibR Smooth Spec_Smooth Spec_Poly Pf_Smooth Pf_Lin Pf_Poly Pf_LinSing.
Set Implicit Arguments.
Local Open Scope R_scope.

Lemma one_time_few ps : one_time ps -> ~ distinct_times 2 ps.
Proof.
  intros H (ts & Hn & L & Hi). destruct ts as [|a [|b [|]]]; try discriminate.
  assert (Ha := Hi a ltac:(left; reflexivity)). assert (Hb := Hi b ltac:(right; left; reflexivity)).
  apply in_map_iff in Ha, Hb. destruct Ha as (u & Eu & Hu), Hb as (v & Ev & Hv). specialize (H u v Hu Hv).
  inversion Hn as [|? ? N1 N2 E1]; subst. apply N1. left. congruence.
Qed.
Lemma axis ord s f t x fx ps : pf_reach ord (lsq_conf s) (fst (pf_predict (lsq_conf s) fx (Some t : RX))) ->
  pf_add (lsq_conf s) f (Some t : RX) x = Ok fx -> window_of (fst (pf_predict (lsq_conf s) fx (Some t : RX))) ps ->
  (2 <= List.length ps)%nat -> pf_last f = None \/ one_time ps ->
  snd (pf_predict (lsq_conf s) fx (Some t : RX)) = None /\ pf_last (fst (pf_predict (lsq_conf s) fx (Some t : RX))) = None.
Proof.
  intros HR Ha (Wx & Wy) L H. destruct (predict_window (lsq_conf s) fx (Some t : RX)) as (P1 & P2 & P3).
  assert (W : window_of fx ps) by (split; congruence).
  apply (@predict_nan (lsq_conf s) fx ps (Some t : RX) W L); [cbn [lsq_conf pc_power]; lia|].
  destruct H as [H|H]; [right; rewrite (@pf_add_last RX _ _ _ _ _ _ Ha); exact H|left]. rewrite <- P3.
  apply (@fit_degenerate ord (lsq_conf s) _ ps HR (conj Wx Wy)); [cbn [lsq_conf pc_power]; lia|]. apply one_time_few, H.
Qed.
Theorem smoother_off (s : settings RX) al q q' p r ps qs : lsq_reach s q -> lq_called q = true -> s_barriers s = false -> real_point p ->
  lsq_smooth s al q p = Ok (q', r) -> window_of (lq_x q') ps -> window_of (lq_y q') qs ->
  (((2 <= List.length ps)%nat /\ (pf_last (lq_x q) = None \/ one_time ps)) -> r = p /\ pf_last (lq_x q') = None) /\
  (((2 <= List.length qs)%nat /\ (pf_last (lq_y q) = None \/ one_time qs)) -> r = p /\ pf_last (lq_y q') = None).
Proof.
  intros HR Hc Hb Hp H Wx Wy. assert (R' : lsq_reach s q') by (eapply LRsmooth; eauto). destruct (lsq_fits R') as [Fx Fy].
  apply lsq_smooth_cases in H. cbv zeta in H. destruct H as [(C & _)|(_ & _ & fx & fy & Ax & Ay & H)]; [congruence|].
  rewrite secs in *. set (t := IZR _ / 1000) in *. clearbody t.
  destruct H as [(C & _)|(Ex & Ey & _ & Er)]; [congruence|]. rewrite Ex in Wx, Fx. rewrite Ey in Wy, Fy. rewrite Ex, Ey. clear Ex Ey.
  split; intros [L Hd].
  - destruct (@axis _ _ _ _ _ _ _ Fx Ax Wx L Hd) as [E1 E2]. split; [|exact E2]. rewrite E1 in Er. exact Er.
  - destruct (@axis _ _ _ _ _ _ _ Fy Ay Wy L Hd) as [E1 E2]. split; [|exact E2]. rewrite E1, andb_comm in Er. exact Er.
Qed.
