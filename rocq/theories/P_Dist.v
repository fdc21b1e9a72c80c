(** C114: the distance a radio measurement carries. *)
From Coq Require Import Reals Lra Lia Permutation.
From Verif Require Import Lib Base NumReal NumFloat LibR SortInst LevelModel Preproc Spec_Preproc Spec_Dist Pf_Preproc Ex.
Local Open Scope string_scope.
Local Open Scope list_scope.

Lemma set_distance_carries {F : Type} {NF : Num F} (s : settings F) (c : collector F) m : wf_collector c ->
  exists m', set_distance s c m = Ok m' /\ carries s c m m'.
Proof.
  intros Hw. unfold set_distance.
  destruct (is_rtt (r_type m)) eqn:R; cbn [negb].
  - eexists. split; [reflexivity|]. split; [reflexivity|]. split; [reflexivity|]. split; [reflexivity|].
    split; [reflexivity|]. intros N. destruct (r_type m); try discriminate R. congruence.
  - assert (R' : r_type m <> WIFI_RTT) by (intros E; rewrite E in R; discriminate R).
    unfold find_level_by_tx. destruct (find _ _) as [l|] eqn:El.
    + apply find_split in El. destruct El as (a & b & Ec & Ha & Hx).
      destruct (@get_level_wf F c l Hw) as [H1 H2]; [rewrite Ec; apply in_elt|]. rewrite H2. cbn [bind].
      unfold contains_tx, amem in Hx. unfold get_tx.
      destruct (alookup (r_id m) (l_txs l)) as [t|] eqn:Et; [|discriminate]. cbn [at_or_throw bind].
      eexists. split; [reflexivity|]. split; [reflexivity|]. split; [reflexivity|]. split; [reflexivity|].
      split; [contradiction|]. intros _. split.
      * intros t' (a' & l' & b' & Ec' & Ha' & Et'). cbn [radio_set r_dist].
        assert (Q : find (fun l => contains_tx l (r_id m)) (col_levels c) = Some l').
        { rewrite Ec', find_app_none.
          - cbn. unfold contains_tx, amem. rewrite Et'. reflexivity.
          - eapply Forall_impl; [|exact Ha']. cbn. intros y Hy. unfold contains_tx.
            destruct (amem _ _) eqn:E; [|reflexivity]. apply amem_true in E. contradiction. }
        assert (Q' : find (fun l => contains_tx l (r_id m)) (col_levels c) = Some l).
        { rewrite Ec, find_app_none by exact Ha. cbn. unfold contains_tx, amem. rewrite Et. reflexivity. }
        rewrite Q in Q'. injection Q' as ->. rewrite Et in Et'. injection Et' as ->. reflexivity.
      * intros N. exfalso. unfold nowhere in N. rewrite Forall_forall in N. apply (N l); [rewrite Ec; apply in_elt|].
        apply amem_true. unfold amem. rewrite Et. reflexivity.
    + eexists. split; [reflexivity|]. split; [reflexivity|]. split; [reflexivity|]. split; [reflexivity|].
      split; [contradiction|]. intros _. split; [|reflexivity].
      intros t (a & l & b & Ec & _ & Et). exfalso.
      apply find_none with (x := l) in El; [|rewrite Ec; apply in_elt]. unfold contains_tx, amem in El. rewrite Et in El. discriminate.
Qed.

(** ** C114 *)
(** every measurement handed on is an averaged one with the distance filled in *)
Theorem C114_carried {F : Type} {NF : Num F} {SO : Sorter} (s : settings F) bc (c : collector F) p ls p' out : wf_collector c ->
  extract_radio s bc c p ls = Ok (p', out) ->
  let avg := snd (buffer_extract bc (pp_buf p) ls) in
  exists sel, Forall2 (carries s c) sel out /\ incl sel avg /\ (s_closest s = false -> sel = avg).
Proof.
  intros Hw H. cbv zeta. unfold extract_radio in H. destruct (buffer_extract bc (pp_buf p) ls) as [b avg]. cbn [snd].
  inv_bind H. inv_bind Hb. injection Hb0 as _ <-. rename a into sel, a0 into out'. exists sel. split; [|split].
  - apply mapM_forall2 in Ha0. eapply Forall2_imp; [|exact Ha0]. intros m m' E.
    destruct (set_distance_carries s c m Hw) as (m1 & E1 & G). rewrite E in E1. injection E1 as ->. exact G.
  - destruct (s_closest s) eqn:Ec.
    + destruct (closest_spec _ _ Ec Ha) as (dropped & P & _). intros x Hx.
      eapply Permutation_in; [symmetry; exact P|]. apply in_or_app. auto.
    + unfold closest_aps in Ha. rewrite Ec in Ha. injection Ha as <-. intros x Hx. exact Hx.
  - intros Ec. unfold closest_aps in Ha. rewrite Ec in Ha. injection Ha as <-. reflexivity.
Qed.
Print Assumptions C114_carried.

(** over the reals, for a transmitter with constants A and B <> 0: positive, one
    metre at strength A, multiplied by e whenever the strength falls by B *)
Theorem C114_law (s : settings RX) (c : collector RX) m m' t A B r : carries s c m m' -> r_type m <> WIFI_RTT ->
  first_installed c (r_id m) t -> pl_A (t_pl t) = Some A -> pl_B (t_pl t) = Some B -> r_rssi m = Some r -> B <> 0%R ->
  exists d, r_dist m' = Some d /\ (0 < d)%R /\ (r = A - B * ln d)%R.
Proof.
  intros (_ & _ & _ & _ & H) Ht Hf EA EB Er NB. destruct (H Ht) as [H1 _]. rewrite (H1 t Hf), EA, EB, Er.
  exists (exp ((A - r) / B)). split; [|split; [apply exp_pos|]].
  - change (Some A -! Some r)%F with (Some (A - r)%R : RX). rewrite rx_div by exact NB. reflexivity.
  - rewrite ln_exp. field. exact NB.
Qed.
Print Assumptions C114_law.

(** for B > 0 a stronger signal of the same transmitter means nearer, and only that *)
Theorem C114_nearer (s : settings RX) (c : collector RX) m1 m1' m2 m2' t A B r1 r2 d1 d2 :
  carries s c m1 m1' -> carries s c m2 m2' -> r_type m1 <> WIFI_RTT -> r_type m2 <> WIFI_RTT -> r_id m1 = r_id m2 ->
  first_installed c (r_id m1) t -> pl_A (t_pl t) = Some A -> pl_B (t_pl t) = Some B -> (0 < B)%R ->
  r_rssi m1 = Some r1 -> r_rssi m2 = Some r2 -> r_dist m1' = Some d1 -> r_dist m2' = Some d2 ->
  ((r1 < r2)%R <-> (d2 < d1)%R).
Proof.
  intros C1 C2 T1 T2 E12 Hf EA EB PB E1 E2 D1 D2.
  destruct (@C114_law s c m1 m1' t A B r1 C1 T1 Hf EA EB E1) as (x1 & X1 & P1 & L1); [lra|].
  rewrite E12 in Hf. destruct (@C114_law s c m2 m2' t A B r2 C2 T2 Hf EA EB E2) as (x2 & X2 & P2 & L2); [lra|].
  rewrite X1 in D1. rewrite X2 in D2. injection D1 as ->. injection D2 as ->. rewrite L1, L2. split; intros H.
  - apply Rnot_le_lt. intros L. assert (ln d1 <= ln d2)%R by (destruct L as [L| ->]; [left; apply ln_increasing; assumption|right; reflexivity]). nra.
  - pose proof (ln_increasing _ _ P2 H). nra.
Qed.
Print Assumptions C114_nearer.

(** a transmitter with B = 0 gives no number *)
Theorem C114_zero (s : settings RX) (c : collector RX) m m' t A r : carries s c m m' -> r_type m <> WIFI_RTT ->
  first_installed c (r_id m) t -> pl_A (t_pl t) = Some A -> pl_B (t_pl t) = Some 0%R -> r_rssi m = Some r -> r_dist m' = None.
Proof.
  intros (_ & _ & _ & _ & H) Ht Hf EA EB Er. destruct (H Ht) as [H1 _]. rewrite (H1 t Hf), EA, EB, Er.
  cbn. unfold Reqb. destruct (Req_EM_T 0 0); [reflexivity|congruence].
Qed.
Print Assumptions C114_zero.

Example C114_example : let c := @ex_col RX _ in exists t, first_installed c "c" t /\ nowhere c "d" /\
  pl_A (t_pl t) = Some (-60)%R /\ exists B, pl_B (t_pl t) = Some B /\ (0 < B)%R.
Proof.
  cbv zeta. eexists. split.
  - exists [ex_L1], ex_L2, []. split; [reflexivity|]. split; [|reflexivity]. constructor; [|constructor].
    cbn. intros [H|[H|[]]]; discriminate.
  - split; [|split; [cbn; reflexivity|]].
    + constructor; [|constructor; [|constructor]]; cbn; intuition discriminate.
    + eexists. split; [cbn; reflexivity|]. lra.
Qed.
