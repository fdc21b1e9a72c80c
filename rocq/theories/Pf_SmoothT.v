(** Proofs about the last two positions of the time smoother and the reset of the
    least-squares smoother. *)
From Coq Require Import Reals Lra.
From Verif Require Import Lib NumReal LibR Smooth Spec_Smooth Pf_Smooth Spec_SmoothT.
Set Implicit Arguments.
Local Open Scope R_scope.

Section Fed.
Context {F : Type} {NF : Num F}.
Lemma records_cons (c : tcall F) t : records (c :: t) <> [].
Proof. cbn. destruct (records t) as [|q r]; [discriminate|]. destruct (_ <? _)%Z; discriminate. Qed.
Lemma records_in h q : In q (records h) -> In q (map (@fst (position F) Z) h).
Proof.
  induction h as [|c t IH]; cbn; [auto|]. destruct (records t) as [|p r]; cbn.
  - tauto.
  - cbn in IH. destruct (_ <? _)%Z; cbn; tauto.
Qed.
Lemma records_sorted h : Sorted.StronglySorted (fun a b : position F => (p_ts b < p_ts a)%Z) (records h).
Proof.
  induction h as [|c t IH]; cbn; [constructor|]. destruct (records t) as [|p r]; [repeat constructor|].
  destruct (Z.ltb_spec (p_ts p) (p_ts (fst c))); [|exact IH]. constructor; [exact IH|].
  constructor; [assumption|]. inversion IH as [|? ? _ H2]. eapply Forall_impl; [|exact H2]. cbn. intros; lia.
Qed.
Theorem fed_records (m : tsm F) L h : p_level (tm_prev m) <> L -> same_level L h -> h <> [] ->
  time_fed m h = match records h with
    | [] => m
    | [p] => mkTsm p p
    | p :: q :: _ => mkTsm q p
    end.
Proof.
  intros Hm. induction h as [|c t IH]; intros Hh Hn; [congruence|]. inversion Hh as [|? ? (He & Hl & Ht) Hr]; subst.
  destruct t as [|d t].
  - cbn. unfold time_smooth. destruct (Z.ltb_spec (snd c) (p_ts (fst c))); [lia|].
    apply String.eqb_neq in Hm. rewrite Hm. reflexivity.
  - assert (Hd : records (d :: t) <> []) by apply records_cons.
    assert (A : Forall (fun q : position F => p_empty q = false /\ p_level q = p_level (fst c)) (records (d :: t))).
    { apply Forall_forall. intros q Hq. apply records_in in Hq. apply in_map_iff in Hq. destruct Hq as (e & <- & Hq).
      unfold same_level in Hr. rewrite Forall_forall in Hr. destruct (Hr _ Hq) as (? & ? & ?). auto. }
    specialize (IH Hr ltac:(discriminate)).
    change (time_fed m (c :: d :: t)) with (fst (time_smooth (time_fed m (d :: t)) (fst c) (snd c))).
    change (records (c :: d :: t)) with (match records (d :: t) with [] => [fst c]
      | q :: r => if (p_ts q <? p_ts (fst c))%Z then fst c :: q :: r else q :: r end).
    rewrite IH. clear IH. destruct (records (d :: t)) as [|q r]; [congruence|].
    inversion A as [|? ? (Q1 & Q2) A']; subst.
    unfold time_smooth. destruct (Z.ltb_spec (snd c) (p_ts (fst c))); [lia|].
    destruct r as [|q2 r]; cbn [tm_prev tm_next].
    + rewrite Q2, String.eqb_refl, Q1, He. cbn [orb negb]. cbv zeta. cbn [tm_prev tm_next].
      destruct (_ <? _)%Z; cbn [tm_prev tm_next]; destruct (_ =? _)%Z; try reflexivity; destruct (_ <! _); reflexivity.
    + inversion A' as [|? ? (Q3 & Q4) _]; subst. rewrite Q2, Q4, String.eqb_refl, Q1, Q3, He. cbn [orb negb]. cbv zeta. cbn [tm_prev tm_next].
      destruct (_ <? _)%Z; cbn [tm_prev tm_next]; destruct (_ =? _)%Z; try reflexivity; destruct (_ <! _); reflexivity.
Qed.
(** the call after: the same last two positions are used *)
Lemma fed_call (m : tsm F) L h p ts : p_level (tm_prev m) <> L -> same_level L ((p, ts) :: h) ->
  match records ((p, ts) :: h) with
  | b :: a :: _ => snd (time_smooth (time_fed m h) p ts) =
      if fofZ (p_ts b - p_ts a) <! fofZ (ts - p_ts b) then p
      else let act := fofZ (ts - p_ts b) in let kept := fofZ (p_ts b - p_ts a) in
        pos_set_ts (pos_set_xy b ((p_x b *! act +! p_x a *! (kept -! act)) /! kept)
                                 ((p_y b *! act +! p_y a *! (kept -! act)) /! kept)) ts
  | [b] => snd (time_smooth (time_fed m h) p ts) = b
  | [] => False
  end.
Proof.
  intros Hm Hh. inversion Hh as [|? ? (He & Hl & Ht) Hr]; subst. cbn [fst snd] in *.
  destruct h as [|d t].
  - cbn. unfold time_smooth. destruct (Z.ltb_spec ts (p_ts p)); [lia|].
    apply String.eqb_neq in Hm. rewrite Hm. reflexivity.
  - rewrite (@fed_records m _ _ Hm Hr) by discriminate.
    assert (Hd : records (d :: t) <> []) by apply records_cons.
    assert (A : Forall (fun q : position F => p_empty q = false /\ p_level q = p_level p) (records (d :: t))).
    { apply Forall_forall. intros q Hq. apply records_in in Hq. apply in_map_iff in Hq. destruct Hq as (e & <- & Hq).
      unfold same_level in Hr. rewrite Forall_forall in Hr. destruct (Hr _ Hq) as (? & ? & ?). auto. }
    assert (S := records_sorted (d :: t)).
    change (records ((p, ts) :: d :: t)) with (match records (d :: t) with [] => [p]
      | q :: r => if (p_ts q <? p_ts p)%Z then p :: q :: r else q :: r end).
    destruct (records (d :: t)) as [|q r]; [congruence|].
    inversion A as [|? ? (Q1 & Q2) A']; subst.
    unfold time_smooth. destruct (Z.ltb_spec ts (p_ts p)); [lia|].
    destruct r as [|q2 r]; cbn [tm_prev tm_next].
    + rewrite Q2, String.eqb_refl, Q1, He. cbn [orb negb]. cbv zeta. cbn [tm_prev tm_next].
      destruct (Z.ltb_spec (p_ts q) (p_ts p)); cbn [tm_prev tm_next].
      * destruct (Z.eqb_spec (p_ts p) (p_ts q)); [lia|]. destruct (_ <! _); reflexivity.
      * rewrite Z.eqb_refl. reflexivity.
    + inversion A' as [|? ? (Q3 & Q4) _]; subst. rewrite Q2, Q4, String.eqb_refl, Q1, Q3, He. cbn [orb negb]. cbv zeta. cbn [tm_prev tm_next].
      inversion S as [|? ? S1 S2]; subst. inversion S2 as [|? ? S3 _]; subst.
      destruct (Z.ltb_spec (p_ts q) (p_ts p)); cbn [tm_prev tm_next].
      * destruct (Z.eqb_spec (p_ts p) (p_ts q)); [lia|]. destruct (_ <! _); reflexivity.
      * destruct (Z.eqb_spec (p_ts q) (p_ts q2)); [lia|]. destruct (_ <! _); reflexivity.
Qed.
End Fed.

Theorem last_two (m : tsm RX) L h p ts b a r : p_level (tm_prev m) <> L -> same_level L ((p, ts) :: h) ->
  records ((p, ts) :: h) = b :: a :: r -> (p_ts b <= ts)%Z -> real_point a -> real_point b ->
  let q := snd (time_smooth (time_fed m h) p ts) in
  ((p_ts b - p_ts a < ts - p_ts b)%Z -> q = p) /\
  ((ts - p_ts b <= p_ts b - p_ts a)%Z -> p_ts q = ts /\ p_level q = L /\
     on_segment a b q (IZR (ts - p_ts b) / IZR (p_ts b - p_ts a))).
Proof.
  intros Hm Hh Hr Hb (ax & ay & Ea1 & Ea2) (bx & by_ & Eb1 & Eb2) q. assert (H := @fed_call _ _ m L h p ts Hm Hh). rewrite Hr in H. fold q in H.
  assert (S := records_sorted ((p, ts) :: h)). rewrite Hr in S. inversion S as [|? ? _ S2]; subst. inversion S2 as [|? ? S3 _]; subst.
  assert (Lb : p_level b = L).
  { assert (I : In b (records ((p, ts) :: h))) by (rewrite Hr; left; reflexivity). apply records_in in I. apply in_map_iff in I.
    destruct I as (e & <- & I). unfold same_level in Hh. rewrite Forall_forall in Hh. apply (Hh _ I). }
  rewrite !rx_ofZ, rx_ltb in H. split; intros Hk.
  - assert (E : Rltb (IZR (p_ts b - p_ts a)) (IZR (ts - p_ts b)) = true) by (apply Rltb_true, IZR_lt; lia). rewrite E in H. exact H.
  - assert (E : Rltb (IZR (p_ts b - p_ts a)) (IZR (ts - p_ts b)) = false) by (apply Rltb_false, IZR_le; lia). rewrite E in H.
    cbv zeta in H. assert (K : 0 < IZR (p_ts b - p_ts a)) by (apply IZR_lt; lia).
    set (act := IZR (ts - p_ts b)) in *. set (kept := IZR (p_ts b - p_ts a)) in *.
    rewrite H. cbn [pos_set_ts pos_set_xy p_ts p_level]. split; [reflexivity|]. split; [exact Lb|].
    exists ax, ay, bx, by_. split; [split; assumption|]. split; [split; assumption|].
    unfold at_point. cbn [pos_set_ts pos_set_xy p_x p_y]. rewrite Ea1, Ea2, Eb1, Eb2, !rx_sub, !rx_mul, !rx_add, !rx_div by lra.
    split; f_equal; field; lra.
Qed.

(** * Reset of the least-squares smoother *)
Lemma add_empty (c : pfconf RX) (f : polyfit RX) x y f' : pf_x f = [] -> pf_y f = [] ->
  pf_add c f (Some x : RX) (Some y : RX) = Ok f' -> window_of f' [(x, y)].
Proof.
  intros Hx Hy. unfold pf_add. rewrite Hx, Hy. cbn [back app]. cbn [remove_old].
  destruct (_ <! _); [discriminate|]. intros H. injection H as <-. split; reflexivity.
Qed.
Theorem reset_output (s : settings RX) al (q : lsq RX) (p0 p : position RX) m r x y : defined (s_shift s) -> at_point p x y ->
  sm_smooth s al (sm_reset (SLsq q) p0) p = Ok (m, r) ->
  r = p /\ exists q', m = SLsq q' /\ (lq_called q = true -> (s_barriers s = true -> al (Some x) (Some y) = true) ->
    let t := IZR (p_ts p - p_ts p0) / 1000 in
    window_of (lq_x q') [(t, x)] /\ window_of (lq_y q') [(t, y)] /\ lq_start q' = p_ts p0).
Proof.
  intros Hs (Ex & Ey) H. cbn [sm_reset sm_smooth] in H. inv_bind H. destruct a as [q' r']. injection Hb as <- <-.
  apply lsq_smooth_cases in Ha. cbv zeta in Ha. cbn [lsq_reset lq_called lq_x lq_y lq_start] in Ha.
  destruct Ha as [(C & -> & _)|(C & _ & fx & fy & Ax & Ay & H)].
  - split; [reflexivity|]. exists q'. split; [reflexivity|]. congruence.
  - rewrite secs in *. rewrite Ex in Ax. rewrite Ey in Ay.
    assert (Wx : window_of fx [(IZR (p_ts p - p_ts p0) / 1000, x)]) by (eapply add_empty; [| |exact Ax]; reflexivity).
    assert (Wy : window_of fy [(IZR (p_ts p - p_ts p0) / 1000, y)]) by (eapply add_empty; [| |exact Ay]; reflexivity).
    assert (Hs' : defined (pc_shift (lsq_conf s))) by exact Hs.
    rewrite (@predict_single _ fx _ _ _ Wx Hs'), (@predict_single _ fy _ _ _ Wy Hs') in H.
    destruct H as [(B & A & -> & _)|(Qx & Qy & Qs & Er)].
    + split; [reflexivity|]. exists q'. split; [reflexivity|]. intros _ B'. rewrite (B' B) in A. discriminate.
    + split.
      * rewrite Er. cbn. destruct p; cbn in *. unfold pos_set_xy. cbn. congruence.
      * exists q'. split; [reflexivity|]. intros _ _. rewrite Qx, Qy.
        destruct (predict_window (lsq_conf s) fx (Some (IZR (p_ts p - p_ts p0) / 1000) : RX)) as (P1 & P2 & _).
        destruct (predict_window (lsq_conf s) fy (Some (IZR (p_ts p - p_ts p0) / 1000) : RX)) as (P3 & P4 & _).
        unfold window_of. rewrite P1, P2, P3, P4. split; [exact Wx|]. split; [exact Wy|exact Qs].
Qed.

(** * Prediction without samples *)
Lemma remove_old_nonempty {F} {NF : Num F} (int bx : F) : forall xs ys a b, remove_old int bx xs ys = Ok (a, b) -> a <> [] /\ b <> [].
Proof.
  induction xs as [|x xs IH]; intros [|y ys] a b; cbn; try discriminate.
  destruct (_ <! _); [apply IH|]. intros H. injection H as <- <-. split; discriminate.
Qed.
Theorem add_nonempty {F} {NF : Num F} (c : pfconf F) f x y f' : pf_add c f x y = Ok f' -> pf_y f' <> [].
Proof.
  unfold pf_add. destruct (back (pf_y f)) as [l|] eqn:E.
  - destruct (fneb l y); intros H.
    + inv_bind H. destruct a as [xs ys]. injection Hb as <-. apply remove_old_nonempty in Ha. apply Ha.
    + injection H as <-. cbn. intros E'. rewrite E' in E. discriminate.
  - intros H. inv_bind H. destruct a as [xs ys]. injection Hb as <-. apply remove_old_nonempty in Ha. apply Ha.
Qed.
