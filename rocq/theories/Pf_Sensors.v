(** Pedometer, complementary filter, sensor fusion (C44-C47). *)
From Coq Require Import Reals Lra Lia ZArith.
From Verif Require Import Base Lib NumOrd NumReal LibR Sensors Spec_Sensors Pf_Angle.
Set Implicit Arguments.

(** * Pedometer *)
Section Ped.
Context {F : Type} {NF : Num F}.
Implicit Types (p : pedometer F) (m : stamped (sensor F)) (g : magnitude F).

Lemma skip_while_last A (c : A -> bool) l x : c x = false ->
  exists a b, skip_while c (l ++ [x]) = Ok (b ++ [x]) /\ l = a ++ b /\ Forall (fun y => c y = true) a /\
    (match b with [] => True | y :: _ => c y = false end).
Proof.
  intros Hx. induction l as [|y t IH].
  - exists [], []. cbn. rewrite Hx. auto.
  - cbn [app skip_while]. destruct (c y) eqn:E.
    + destruct IH as (a & b & H1 & H2 & H3 & H4). exists (y :: a), b. rewrite H1, H2. auto.
    + exists [], (y :: t). rewrite E. auto.
Qed.

Lemma filtered_ok acc m : exists g, filtered_magnitude (acc ++ [m]) (st_ts m) = Ok g /\
  (mg_ts g = st_ts m \/ mg_ts g = 0%Z).
Proof.
  unfold filtered_magnitude.
  destruct (@skip_while_last _ (fun x : stamped (sensor F) => (2500 <=? st_ts m - st_ts x)%Z) acc m) as (a & b & -> & _); [lia|].
  destruct (@skip_while_last _ (fun x : stamped (sensor F) => (200 <=? st_ts m - st_ts x)%Z) acc m) as (a' & b' & -> & _); [lia|].
  cbn [bind]. destruct (_ || _); eexists; split; try reflexivity; cbn; auto.
Qed.

Definition new_mags p p1 m :=
  pd_mags p1 = pd_mags p \/
  (exists g, pd_mags p1 = pd_mags p ++ [g] /\ mg_ts g = st_ts m /\ mg_ts g <> 0%Z /\
     s_type (st_data m) = ACCELEROMETER /\ filtered_magnitude (pd_acc p ++ [m]) (st_ts m) = Ok g).

Lemma update_ok p m : exists p1, ped_update p m = Ok p1 /\ new_mags p p1 m /\
  pd_size p1 = Nat.max (List.length (pd_mags p)) 1 /\ pd_times p1 = pd_times p /\
  pd_possible p1 = pd_possible p /\ pd_steptime p1 = pd_steptime p /\
  (s_type (st_data m) <> ACCELEROMETER -> pd_acc p1 = pd_acc p /\ pd_mags p1 = pd_mags p) /\
  (s_type (st_data m) = ACCELEROMETER -> exists a b, pd_acc p1 = b ++ [m] /\ pd_acc p = a ++ b /\
     Forall (fun y => (5000 < st_ts m - st_ts y)%Z) a /\
     match b with [] => True | y :: _ => (st_ts m - st_ts y <= 5000)%Z end).
Proof.
  unfold ped_update. destruct (s_type (st_data m)) eqn:Et;
    try (eexists; split; [reflexivity|]; cbn; repeat split; auto; [left; reflexivity|discriminate]).
  destruct (filtered_ok (pd_acc p) m) as (g & Hg & Ht). rewrite Hg. cbn [bind].
  destruct (@skip_while_last _ (fun x : stamped (sensor F) => (2 * 2500 <? st_ts m - st_ts x)%Z) (pd_acc p) m)
    as (a & b & -> & Hab & H3 & H4); [lia|]. cbn [bind].
  eexists. split; [reflexivity|]. cbn. split; [|repeat split; auto; try congruence].
  - unfold new_mags; cbn. destruct (Z.eqb_spec (mg_ts g) 0) as [E|E]; [left; reflexivity|right].
    exists g. repeat split; auto. destruct Ht; congruence.
  - intros _. exists a, b. repeat split; auto.
    + eapply Forall_impl; [|exact H3]. cbn. intros; lia.
    + destruct b; auto. cbn in H4. lia.
Qed.

Lemma seq_nil a n : (n <= a)%nat -> seq a (n - a) = [].
Proof. intros H. replace (n - a)%nat with 0%nat by lia. reflexivity. Qed.

(** the upward crossing test at the two newest magnitudes *)
Definition crossing p (prev cur : magnitude F) : bool :=
  (mg_val prev <! min_threshold) && (min_threshold <! mg_val cur)
  && (300 <? mg_ts cur - pd_possible p)%Z && (f0 <! (time_between (pd_times p) : F)).

Definition trim_mags (l : list (magnitude F)) : res (list (magnitude F)) :=
  let last := match back l with Some x => mg_ts x | None => 0%Z end in
  skip_while (fun x => (2 * 700 <? last - mg_ts x)%Z) l.

Lemma trim_mags_ok l x : exists a b, trim_mags (l ++ [x]) = Ok (b ++ [x]) /\ l = a ++ b /\
  Forall (fun y => (1400 < mg_ts x - mg_ts y)%Z) a /\
  match b with [] => True | y :: _ => (mg_ts x - mg_ts y <= 1400)%Z end.
Proof.
  unfold trim_mags. rewrite back_app.
  destruct (@skip_while_last _ (fun m : magnitude F => (2 * 700 <? mg_ts x - mg_ts m)%Z) l x)
    as (a & b & -> & Hab & H3 & H4); [lia|].
  exists a, b. repeat split; auto.
  - eapply Forall_impl; [|exact H3]. cbn. intros; lia.
  - destruct b; auto. cbn in H4. lia.
Qed.

Lemma rev_mags (l : list (magnitude F)) : l <> [] -> exists l0 x, l = l0 ++ [x].
Proof. intros H. destruct (exists_last H) as (l0 & x & ->). eauto. Qed.

(** one round, completely *)
Lemma ped_step_spec p m : exists p1 p2 ss, ped_update p m = Ok p1 /\ ped_step p m = Ok (p2, ss) /\ new_mags p p1 m /\
  pd_acc p2 = pd_acc p1 /\
  ((List.length (pd_mags p1) <= 3)%nat /\ ss = [] /\ p2 = p1 \/
   (3 < List.length (pd_mags p1))%nat /\
   (exists l x a b, pd_mags p1 = l ++ [x] /\ pd_mags p2 = b ++ [x] /\ l = a ++ b /\
      Forall (fun y => (1400 < mg_ts x - mg_ts y)%Z) a /\
      match b with [] => True | y :: _ => (mg_ts x - mg_ts y <= 1400)%Z end) /\
   ((ss = [] /\ pd_possible p2 = pd_possible p /\ pd_steptime p2 = pd_steptime p /\
       pd_times p2 = skipn (List.length (pd_times p) - 50) (pd_times p) /\
       (pd_mags p1 <> pd_mags p -> forall l prev cur, pd_mags p1 = l ++ [prev; cur] -> crossing p prev cur = false)) \/
    (exists l prev cur, pd_mags p = l ++ [prev] /\ pd_mags p1 = l ++ [prev; cur] /\ mg_ts cur = st_ts m /\
       crossing p prev cur = true /\
       ss = [mkStep (mg_ts cur) (step_length cur (rev (l ++ [prev])))] /\
       pd_possible p2 = mg_ts cur /\ pd_steptime p2 = mg_ts cur /\
       let times := if (mg_ts cur - pd_steptime p <? 2000)%Z then pd_times p ++ [mg_ts cur - pd_steptime p]%Z
                    else pd_times p in
       pd_times p2 = skipn (List.length times - 50) times))).
Proof.
  destruct (update_ok p m) as (p1 & E1 & Hn & Hs & Ht & Hpo & Hst & _).
  unfold ped_step. rewrite E1. cbn [bind]. unfold ped_steps.
  destruct (Nat.leb_spec (List.length (pd_mags p1)) 3) as [Hl|Hl].
  { exists p1, p1, []. repeat split; auto. }
  assert (Hne : pd_mags p1 <> []) by (destruct (pd_mags p1); [cbn in Hl; lia|discriminate]).
  destruct (rev_mags Hne) as (l & x & El).
  destruct (trim_mags_ok l x) as (a & b & Htr & Hab & Ha & Hb).
  unfold trim_mags in Htr. cbv zeta in Htr.
  rewrite Hs, Ht, Hpo, Hst.
  destruct Hn as [Hn|(g & Hn & Hg1 & Hg2 & Hg3 & Hg4)].
  - rewrite Hn. rewrite seq_nil by (rewrite <- Hn; lia). cbn [fold_left bind].
    rewrite <- Hn, El, Htr. cbn [bind].
    eexists p1, _, _. split; [exact eq_refl|]. split; [reflexivity|]. cbn. split; [left; exact Hn|]. split; [reflexivity|]. right.
    split; [exact Hl|].
    split; [exists l, x, a, b; repeat split; auto|]. left. rewrite <- El. repeat split; auto. congruence.
  - assert (Hlen : (List.length (pd_mags p1) - Nat.max (List.length (pd_mags p)) 1 = 1)%nat /\
                   Nat.max (List.length (pd_mags p)) 1 = List.length (pd_mags p)).
    { rewrite Hn, app_length in *. cbn in *. lia. }
    destruct Hlen as [Hl1 Hl2]. rewrite Hl1, Hl2. cbn [seq fold_left].
    assert (Hnp : pd_mags p <> []) by (intros E; rewrite Hn, E in Hl; cbn in Hl; lia).
    destruct (rev_mags Hnp) as (l' & prev & El').
    unfold ped_body. cbn [bind].
    assert (HS : List.length (pd_mags p) = S (List.length l')) by (rewrite El', app_length; cbn; lia).
    rewrite HS.
    assert (N1 : nth_error (pd_mags p1) (S (List.length l')) = Some g).
    { rewrite <- HS, Hn, nth_error_app2, Nat.sub_diag by lia. reflexivity. }
    assert (N2 : nth_error (pd_mags p1) (List.length l') = Some prev).
    { rewrite Hn, El', <- app_assoc, nth_error_app2, Nat.sub_diag by lia. reflexivity. }
    assert (N3 : firstn (S (List.length l')) (pd_mags p1) = l' ++ [prev]).
    { rewrite <- HS, Hn, firstn_app, Nat.sub_diag, firstn_all, El'. cbn. rewrite app_nil_r. reflexivity. }
    rewrite N1, N2, N3.
    assert (Hx : x = g) by (rewrite El in Hn; apply app_inj_tail in Hn; tauto).
    assert (Hlx : l = l' ++ [prev]) by (rewrite El in Hn; apply app_inj_tail in Hn; rewrite <- El'; tauto).
    fold (crossing p prev g).
    destruct (crossing p prev g) eqn:C; cbn [bind]; rewrite El, Htr; cbn [bind];
      eexists p1, _, _; (split; [exact eq_refl|]); (split; [reflexivity|]); cbn;
      (split; [right; exists g; auto|]); (split; [reflexivity|]); right;
      (split; [exact Hl|]);
      (split; [exists l, x, a, b; repeat split; auto|]).
    + right. exists l', prev, g. repeat split; auto.
      rewrite El, Hlx, Hx, <- app_assoc. reflexivity.
    + left. repeat split; auto. intros _ l2 pr cu E.
      rewrite El, Hlx, Hx in E.
      change [pr; cu] with ([pr] ++ [cu]) in E. rewrite app_assoc in E.
      apply app_inj_tail in E. destruct E as [E ->]. apply app_inj_tail in E. destruct E as [_ ->]. exact C.
Qed.

(** invariant *)
Record ped_inv p : Prop := {
  pi_same : pd_possible p = pd_steptime p;
  pi_times : Forall (fun t => (300 < t < 2000)%Z) (pd_times p);
  pi_count : (List.length (pd_times p) <= 50)%nat;
  pi_acc : match pd_acc p, back (pd_acc p) with
           | x :: _, Some y => (st_ts y - st_ts x <= 5000)%Z | _, _ => True end;
  pi_mags : (List.length (pd_mags p) <= 3)%nat \/
            match pd_mags p, back (pd_mags p) with
            | x :: _, Some y => (mg_ts y - mg_ts x <= 1400)%Z | _, _ => True end }.

Lemma ped0_inv : ped_inv (ped0 : pedometer F).
Proof. constructor; cbn; auto with arith. Qed.

Lemma forall_skipn A (P : A -> Prop) n l : Forall P l -> Forall P (skipn n l).
Proof. revert l; induction n as [|n IH]; intros [|x t] H; cbn; auto. apply IH. exact (Forall_inv_tail H). Qed.

Lemma front_back A (b : list A) x : exists y, back (b ++ [x]) = Some x /\ hd_error (b ++ [x]) = Some y.
Proof. rewrite back_app. destruct b; cbn; eauto. Qed.

Lemma ped_step_inv p m p2 ss : ped_inv p -> ped_step p m = Ok (p2, ss) -> ped_inv p2 /\
  (List.length ss <= 1)%nat /\ Forall (fun s => sp_ts s = st_ts m) ss /\
  spaced (pd_possible p) (map (@sp_ts F) ss) /\
  pd_possible p2 = List.last (map (@sp_ts F) ss) (pd_possible p).
Proof.
  intros I E. destruct (ped_step_spec p m) as (p1 & p2' & ss' & E1 & E2 & Hn & Hacc & H).
  rewrite E in E2. injection E2 as <- <-.
  destruct (update_ok p m) as (p1' & E1' & _ & Hs & Ht & Hpo & Hst & Hna & Ha).
  rewrite E1 in E1'. injection E1' as <-.
  assert (IA : match pd_acc p2, back (pd_acc p2) with
           | x :: _, Some y => (st_ts y - st_ts x <= 5000)%Z | _, _ => True end).
  { rewrite Hacc. destruct (s_type (st_data m)) eqn:Et;
      try (destruct (Hna ltac:(discriminate)) as [-> _]; exact (pi_acc I)).
    destruct (Ha eq_refl) as (a & b & -> & _ & _ & Hb). rewrite back_app. destruct b; cbn; lia. }
  destruct H as [(Hl & -> & ->)|(Hl & (l & x & a & b & El1 & El2 & _ & _ & Hb) & H)].
  - cbn. split; [|auto]. constructor; auto.
    + rewrite Hpo, Hst. exact (pi_same I).
    + rewrite Ht. exact (pi_times I).
    + rewrite Ht. exact (pi_count I).
  - assert (IM : match pd_mags p2, back (pd_mags p2) with
            | x :: _, Some y => (mg_ts y - mg_ts x <= 1400)%Z | _, _ => True end).
    { rewrite El2, back_app. destruct b; cbn; lia. }
    destruct H as [(-> & Hp & Hq & Htt & _)|(l' & prev & cur & Em & Em1 & Hc & C & -> & Hp & Hq & Htt)].
    + cbn. split; [|auto]. constructor; auto.
      * rewrite Hp, Hq. exact (pi_same I).
      * rewrite Htt. apply forall_skipn. exact (pi_times I).
      * rewrite Htt, skipn_length. lia.
    + cbn. unfold crossing in C. apply andb_prop in C as [C _]. apply andb_prop in C as [_ C].
      rewrite (pi_same I) in C.
      split; [|repeat split; auto; [rewrite (pi_same I); lia]].
      constructor; auto.
      * congruence.
      * rewrite Htt. apply forall_skipn. destruct (Z.ltb_spec (mg_ts cur - pd_steptime p) 2000).
        -- apply Forall_app. split; [exact (pi_times I)|]. constructor; [lia|constructor].
        -- exact (pi_times I).
      * rewrite Htt, skipn_length. lia.
Qed.

Lemma spaced_app last l1 l2 : spaced last (l1 ++ l2) <-> spaced last l1 /\ spaced (List.last l1 last) l2.
Proof.
  revert last; induction l1 as [|x t IH]; intros last; [cbn; tauto|].
  cbn [app spaced]. rewrite IH. destruct t as [|y t']; cbn [List.last spaced]; [tauto|].
  assert (E : forall d e : Z, List.last (y :: t') d = List.last (y :: t') e).
  { clear. revert y. induction t' as [|z t IH]; intros y d e; [reflexivity|]. exact (IH z d e). }
  change (match t' with [] => y | _ :: _ => List.last t' last end) with (List.last (y :: t') last).
  change (match t' with [] => y | _ :: _ => List.last t' x end) with (List.last (y :: t') x).
  rewrite (E x last). cbn [spaced]. tauto.
Qed.

Lemma last_app_default A (l1 l2 : list A) d : List.last (l1 ++ l2) d = List.last l2 (List.last l1 d).
Proof.
  destruct l2 as [|y t] using rev_ind; [cbn; rewrite app_nil_r; reflexivity|].
  rewrite app_assoc, !last_last. reflexivity.
Qed.

Lemma ped_run_ok ms : forall p, ped_inv p -> exists p' r, ped_run p ms = Ok (p', r) /\ ped_inv p' /\
  Forall2 (fun m ss => (List.length ss <= 1)%nat /\ Forall (fun s => sp_ts s = st_ts m) ss) ms r /\
  spaced (pd_possible p) (map (@sp_ts F) (List.concat r)) /\
  pd_possible p' = List.last (map (@sp_ts F) (List.concat r)) (pd_possible p).
Proof.
  induction ms as [|m t IH]; intros p I; [exists p, []; cbn; auto 6|].
  destruct (ped_step_spec p m) as (p1 & p2 & ss & _ & E & _).
  destruct (@ped_step_inv p m p2 ss I E) as (I2 & H1 & H2 & H3 & H4).
  destruct (IH p2 I2) as (p' & r & E2 & I' & H5 & H6 & H7).
  exists p', (ss :: r). cbn [ped_run List.concat]. rewrite E. cbn [bind]. rewrite E2. cbn [bind].
  split; [reflexivity|]. split; [exact I'|]. split; [constructor; auto|]. split.
  - rewrite map_app. apply spaced_app. rewrite <- H4. auto.
  - rewrite map_app, last_app_default, <- H4. exact H7.
Qed.

Lemma ped_run_app ms1 ms2 p p1 r1 p2 r2 : ped_run p ms1 = Ok (p1, r1) -> ped_run p1 ms2 = Ok (p2, r2) ->
  ped_run p (ms1 ++ ms2) = Ok (p2, r1 ++ r2).
Proof.
  revert p r1. induction ms1 as [|m t IH]; intros p r1 H1 H2; cbn [app ped_run] in *.
  - injection H1 as <- <-. exact H2.
  - inv_bind H1. destruct a as [q s]. inv_bind Hb. destruct a as [q2 s2]. injection Hb0 as <- <-.
    rewrite Ha. cbn [bind]. rewrite (IH _ _ Ha0 H2). reflexivity.
Qed.

Lemma ped_run_snoc ms m p p2 r2 : ped_run p (ms ++ [m]) = Ok (p2, r2) ->
  exists p1 r1 ss, ped_run p ms = Ok (p1, r1) /\ ped_step p1 m = Ok (p2, ss) /\ r2 = r1 ++ [ss].
Proof.
  revert p r2. induction ms as [|x t IH]; intros p r2 H; cbn [app ped_run] in *.
  - inv_bind H. destruct a as [q s]. injection Hb as <- <-. exists p, [], s. auto.
  - inv_bind H. destruct a as [q s]. inv_bind Hb. destruct a as [q2 s2]. injection Hb0 as <- <-.
    destruct (IH _ _ Ha0) as (p1 & r1 & ss & E1 & E2 & ->).
    exists p1, (s :: r1), ss. cbn [ped_run]. rewrite Ha. cbn [bind]. rewrite E1. auto.
Qed.

(** ** non-decreasing timestamps: everything stored is recent *)
Definition sorted_ts {A} (ts : A -> Z) (l : list A) : Prop := StronglySorted (fun a b => (ts a <= ts b)%Z) l.
Definition latest {A} (ts : A -> Z) (l : list A) (t : Z) : Prop := Forall (fun x => (ts x <= t)%Z) l.

Lemma sorted_snoc A (ts : A -> Z) l x : sorted_ts ts l -> latest ts l (ts x) -> sorted_ts ts (l ++ [x]).
Proof.
  unfold sorted_ts, latest. induction l as [|y t IH]; intros H1 H2; cbn.
  - constructor; constructor.
  - apply StronglySorted_inv in H1 as [H1 H3]. constructor.
    + apply IH; [exact H1|exact (Forall_inv_tail H2)].
    + apply Forall_app. split; [exact H3|]. constructor; [exact (Forall_inv H2)|constructor].
Qed.
Lemma sorted_suffix A (ts : A -> Z) a b : sorted_ts ts (a ++ b) -> sorted_ts ts b.
Proof. induction a as [|x t IH]; intros H; [exact H|]. apply IH. exact (proj1 (StronglySorted_inv H)). Qed.
Lemma latest_app A (ts : A -> Z) a b t : latest ts (a ++ b) t <-> latest ts a t /\ latest ts b t.
Proof. apply Forall_app. Qed.
Lemma sorted_head A (ts : A -> Z) y l : sorted_ts ts (y :: l) -> forall z, In z (y :: l) -> (ts y <= ts z)%Z.
Proof.
  intros H z [->|Hz]; [lia|]. apply StronglySorted_inv in H as [_ H]. rewrite Forall_forall in H. exact (H z Hz).
Qed.

Record ped_sorted p (t : Z) : Prop := {
  ps_acc : sorted_ts (@st_ts _) (pd_acc p); ps_acc_t : latest (@st_ts _) (pd_acc p) t;
  ps_mags : sorted_ts (@mg_ts F) (pd_mags p); ps_mags_t : latest (@mg_ts F) (pd_mags p) t }.

Lemma ped_step_sorted p m p2 ss t : ped_sorted p t -> (t <= st_ts m)%Z -> ped_step p m = Ok (p2, ss) ->
  ped_sorted p2 (st_ts m).
Proof.
  intros S Ht E. destruct (ped_step_spec p m) as (p1 & p2' & ss' & E1 & E2 & Hn & Hacc & H).
  rewrite E in E2. injection E2 as <- <-.
  destruct (update_ok p m) as (p1' & E1' & _ & _ & _ & _ & _ & Hna & Ha).
  rewrite E1 in E1'. injection E1' as <-.
  assert (L : forall A (ts : A -> Z) l, latest ts l t -> latest ts l (st_ts m)).
  { intros A ts l. apply Forall_impl. intros; lia. }
  assert (A1 : sorted_ts (@st_ts _) (pd_acc p2) /\ latest (@st_ts _) (pd_acc p2) (st_ts m)).
  { rewrite Hacc. destruct (s_type (st_data m)) eqn:Et;
      try (destruct (Hna ltac:(discriminate)) as [-> _]; split; [exact (ps_acc S)|apply L; exact (ps_acc_t S)]).
    destruct (Ha eq_refl) as (a & b & -> & Hab & _). pose proof (ps_acc S) as S1. pose proof (L _ _ _ (ps_acc_t S)) as S2.
    rewrite Hab in S1, S2. apply sorted_suffix in S1. apply latest_app in S2 as [_ S2].
    split; [apply sorted_snoc; auto|]. apply latest_app. split; [exact S2|]. constructor; [lia|constructor]. }
  assert (M1 : sorted_ts (@mg_ts F) (pd_mags p1) /\ latest (@mg_ts F) (pd_mags p1) (st_ts m)).
  { destruct Hn as [->|(g & -> & Hg & _)].
    - split; [exact (ps_mags S)|apply L; exact (ps_mags_t S)].
    - split; [apply sorted_snoc; [exact (ps_mags S)|rewrite Hg; apply L; exact (ps_mags_t S)]|].
      apply latest_app. split; [apply L; exact (ps_mags_t S)|]. constructor; [lia|constructor]. }
  destruct A1 as [A1 A2], M1 as [M1 M2].
  destruct H as [(_ & _ & ->)|(_ & (l & x & a & b & El1 & El2 & Hl & _) & _)]; [constructor; auto|].
  rewrite El1, Hl, <- app_assoc in M1, M2. apply sorted_suffix in M1. apply latest_app in M2 as [_ M2].
  constructor; rewrite ?El2; auto.
Qed.
Lemma ped_run_sorted ms : forall p p' r t, ped_sorted p t -> sorted_ts (@st_ts _) ms ->
  Forall (fun m => (t <= st_ts m)%Z) ms -> ped_run p ms = Ok (p', r) -> exists t', ped_sorted p' t'.
Proof.
  induction ms as [|m l IH]; intros p p' r t S H1 H2 E; cbn [ped_run] in E.
  - injection E as <- _. exists t. exact S.
  - inv_bind E. destruct a as [q ss]. inv_bind Hb. destruct a as [q2 r2]. injection Hb0 as <- _.
    apply StronglySorted_inv in H1 as [H1 H3].
    apply (IH q q2 r2 (st_ts m)); auto.
    eapply ped_step_sorted; [exact S|exact (Forall_inv H2)|exact Ha].
Qed.

Lemma window_all A (ts : A -> Z) l y w : sorted_ts ts l -> back l = Some y ->
  (forall x t, l = x :: t -> (ts y - ts x <= w)%Z) ->
  Forall (fun x => (0 <= ts y - ts x <= w)%Z) l.
Proof.
  intros S B H0. destruct l as [|x t]; [constructor|]. pose proof (H0 x t eq_refl) as H. rewrite Forall_forall. intros z Hz.
  pose proof (sorted_head S Hz) as H1. apply back_some in B as (l0 & E).
  assert (H2 : (ts z <= ts y)%Z).
  { rewrite E in S, Hz. clear -S Hz. induction l0 as [|u t IH]; cbn in *.
    - destruct Hz as [->|[]]; lia.
    - apply StronglySorted_inv in S as [S S2]. destruct Hz as [->|Hz]; [|exact (IH S Hz)].
      rewrite Forall_forall in S2. apply S2, in_or_app. right; left; reflexivity. }
  lia.
Qed.

Lemma nondec_sorted A (ts : A -> Z) l : non_decreasing (map ts l) <-> sorted_ts ts l.
Proof.
  unfold non_decreasing, sorted_ts. split.
  - induction l as [|x t IH]; intros H; constructor.
    + apply IH. intros i j a b Hij Ha Hb. apply (H (S i) (S j)); auto. lia.
    + rewrite Forall_forall. intros y Hy. apply In_nth_error in Hy as [n Hn].
      apply (H 0%nat (S n)); [lia|reflexivity|]. cbn. rewrite nth_error_map, Hn. reflexivity.
  - induction l as [|x t IH]; intros H i j a b Hij Ha Hb; [destruct i; discriminate|].
    apply StronglySorted_inv in H as [H1 H2]. destruct i, j; cbn in Ha, Hb; try lia.
    + assert (a = b) by congruence. lia.
    + injection Ha as <-. apply nth_error_In in Hb. apply in_map_iff in Hb as (y & <- & Hy).
      rewrite Forall_forall in H2. exact (H2 y Hy).
    + apply (IH H1 i j); auto. lia.
Qed.

Lemma ped_windows ms p' r : non_decreasing (map (@st_ts _) ms) -> ped_run ped0 ms = Ok (p', r) ->
  (forall y, back (pd_acc p') = Some y -> Forall (fun x => (0 <= st_ts y - st_ts x <= 5000)%Z) (pd_acc p')) /\
  ((3 < List.length (pd_mags p'))%nat ->
   forall y, back (pd_mags p') = Some y -> Forall (fun x => (0 <= mg_ts y - mg_ts x <= 1400)%Z) (pd_mags p')).
Proof.
  intros S E. apply nondec_sorted in S.
  destruct (@ped_run_ok ms (ped0 : pedometer F) ped0_inv) as (q & r' & E' & I & _).
  rewrite E in E'. injection E' as <- <-.
  assert (H : exists t', ped_sorted p' t').
  { destruct ms as [|m t].
    - cbn in E. injection E as <- _. exists 0%Z. constructor; constructor.
    - apply (@ped_run_sorted (m :: t) ped0 p' r (st_ts m)); auto; [constructor; constructor|].
      constructor; [lia|]. apply StronglySorted_inv in S as [_ S]. exact S. }
  destruct H as [t' H]. split.
  - intros y B. eapply window_all; [exact (ps_acc H)|exact B|].
    intros x t Ex. pose proof (pi_acc I) as L. rewrite B, Ex in L. exact L.
  - intros Hl y B. eapply window_all; [exact (ps_mags H)|exact B|]. destruct (pi_mags I) as [L|L]; [lia|].
    intros x t Ex. rewrite B, Ex in L. exact L.
Qed.
End Ped.

(** * Pedometer over the reals *)
Section PedReal.
Local Open Scope R_scope.
Implicit Types (p : pedometer RX) (m : stamped (sensor RX)) (g : magnitude RX).

Definition rmag g (v : R) : Prop := mg_val g = (Some v : RX).
Definition has_val g : Prop := exists v, rmag g v.

Lemma tb_pos (times : list Z) : (f0 <! (time_between times : RX)) = true.
Proof.
  unfold time_between. rewrite rx_f1, rx_ofZ, rx_mul, rx_lit by lra. rewrite rx_ofZ, rx_mul, rx_fmax, rx_f0, rx_ltb.
  apply Rltb_true. eapply Rlt_le_trans; [|apply Rmax_l]. lra.
Qed.

Definition threshold : R := 5 / 100 * (980665 / 100000).
Lemma min_threshold_real : min_threshold = (Some threshold : RX).
Proof. unfold min_threshold. rewrite !rx_lit by lra. rewrite rx_mul. reflexivity. Qed.

Lemma crossing_real p prev cur (a b : R) : rmag prev a -> rmag cur b ->
  crossing p prev cur = true <-> a < threshold /\ threshold < b /\ (300 < mg_ts cur - pd_possible p)%Z.
Proof.
  unfold rmag, crossing. intros Ha Hb. rewrite tb_pos, Ha, Hb, min_threshold_real, !rx_ltb, andb_true_r.
  rewrite !andb_true_iff, !Rltb_true. rewrite Z.ltb_lt. tauto.
Qed.

(** ** the filtered signal *)
Lemma v_mag_real v x y z : real_vec v x y z -> v_mag v = (Some (norm3 x y z) : RX).
Proof.
  intros ->. unfold v_mag. cbn [vx vy vz]. rewrite !rx_mul, !rx_add, rx_sqrt; [reflexivity|].
  pose proof (Rle_0_sqr x) as A. pose proof (Rle_0_sqr y) as B. pose proof (Rle_0_sqr z) as C. unfold Rsqr in *. lra.
Qed.
Lemma v_mag_of m : real_sample m -> v_mag (s_val (st_data m)) = (Some (mag_of m) : RX).
Proof. intros (x & y & z & H). rewrite (v_mag_real H). unfold mag_of. unfold real_vec in H. rewrite H. reflexivity. Qed.

Definition mean (l : list R) : R := rsum l / INR (List.length l).

Lemma sum_mag_real l : Forall real_sample l -> sum_mag l = (Some (rsum (map mag_of l)) : RX).
Proof.
  intros H. unfold sum_mag. rewrite (@fsum_real _ _ mag_of); [reflexivity|].
  intros x Hx. apply v_mag_of. rewrite Forall_forall in H. exact (H x Hx).
Qed.

Lemma filtered_real acc m : Forall real_sample (acc ++ [m]) ->
  exists a b, acc = fst a ++ snd a /\ acc = fst b ++ snd b /\
  Forall (fun x => (2500 <= st_ts m - st_ts x)%Z) (fst a) /\
  match snd a with [] => True | x :: _ => (st_ts m - st_ts x < 2500)%Z end /\
  Forall (fun x => (200 <= st_ts m - st_ts x)%Z) (fst b) /\
  match snd b with [] => True | x :: _ => (st_ts m - st_ts x < 200)%Z end /\
  let wide := map mag_of (snd a ++ [m]) in let narrow := map mag_of (snd b ++ [m]) in
  filtered_magnitude (acc ++ [m]) (st_ts m) =
    Ok (mkMagn (st_ts m) (Some (mean narrow - (rsum wide + mean narrow) / INR (List.length wide)) : RX)).
Proof.
  intros HR.
  destruct (@skip_while_last _ (fun x : stamped (sensor RX) => (2500 <=? st_ts m - st_ts x)%Z) acc m)
    as (a & b & E1 & H1 & H2 & H3); [lia|].
  destruct (@skip_while_last _ (fun x : stamped (sensor RX) => (200 <=? st_ts m - st_ts x)%Z) acc m)
    as (a' & b' & E2 & H4 & H5 & H6); [lia|].
  exists (a, b), (a', b'). cbn [fst snd]. split; [exact H1|]. split; [exact H4|].
  split; [eapply Forall_impl; [|exact H2]; cbn; intros; lia|].
  split; [destruct b; auto; cbn in H3; lia|].
  split; [eapply Forall_impl; [|exact H5]; cbn; intros; lia|].
  split; [destruct b'; auto; cbn in H6; lia|].
  cbv zeta. unfold filtered_magnitude. rewrite E1, E2. cbn [bind].
  assert (R1 : Forall real_sample (b ++ [m])).
  { rewrite H1, <- app_assoc in HR. apply Forall_app in HR. tauto. }
  assert (R2 : Forall real_sample (b' ++ [m])).
  { rewrite H4, <- app_assoc in HR. apply Forall_app in HR. tauto. }
  rewrite !fofnat_real, rx_f0, !rx_eqb.
  assert (N : forall l : list (stamped (sensor RX)), 0 < INR (List.length (l ++ [m]))).
  { intros l. rewrite app_length. cbn [List.length]. rewrite plus_INR. pose proof (pos_INR (List.length l)). cbn. lra. }
  pose proof (N b) as Nb. pose proof (N b') as Nb'.
  assert (Q1 : Reqb (INR (List.length (b ++ [m]))) 0 = false) by (apply Reqb_false; lra).
  assert (Q2 : Reqb (INR (List.length (b' ++ [m]))) 0 = false) by (apply Reqb_false; lra).
  rewrite Q1, Q2. cbn [orb]. rewrite (sum_mag_real R1), (sum_mag_real R2), rx_div by lra.
  rewrite rx_add, rx_div by lra. rewrite rx_sub. unfold mean. rewrite !map_length. reflexivity.
Qed.

Record ped_real p : Prop := {
  pr_acc : Forall real_sample (pd_acc p); pr_mags : Forall has_val (pd_mags p) }.
Lemma ped0_real : ped_real ped0.
Proof. constructor; constructor. Qed.

Lemma update_real p m p1 : ped_real p -> real_sample m -> ped_update p m = Ok p1 -> ped_real p1.
Proof.
  intros [I1 I2] Hm E. destruct (update_ok p m) as (p1' & E1 & Hn & _ & _ & _ & _ & Hna & Ha).
  rewrite E in E1. injection E1 as <-.
  assert (HR : Forall real_sample (pd_acc p ++ [m])) by (apply Forall_app; auto).
  constructor.
  - destruct (s_type (st_data m)) eqn:Et; try (destruct (Hna ltac:(discriminate)) as [-> _]; exact I1).
    destruct (Ha eq_refl) as (a & b & -> & Hab & _). apply Forall_app. split; [|auto].
    rewrite Hab in I1. apply Forall_app in I1. tauto.
  - destruct Hn as [->|(g & -> & _ & _ & _ & Hg)]; [exact I2|].
    apply Forall_app. split; [exact I2|]. constructor; [|constructor].
    destruct (@filtered_real (pd_acc p) m HR) as (a & b & _ & _ & _ & _ & _ & _ & E2).
    cbv zeta in E2. rewrite Hg in E2. injection E2 as ->. eexists. reflexivity.
Qed.
Lemma step_real p m p2 ss : ped_real p -> real_sample m -> ped_step p m = Ok (p2, ss) -> ped_real p2.
Proof.
  intros I Hm E. destruct (ped_step_spec p m) as (p1 & p2' & ss' & E1 & E2 & Hn & Hacc & H).
  rewrite E in E2. injection E2 as <- <-. pose proof (update_real I Hm E1) as [J1 J2].
  constructor; [rewrite Hacc; exact J1|].
  destruct H as [(_ & _ & ->)|(_ & (l & x & a & b & El1 & El2 & Hl & _) & _)]; [exact J2|].
  rewrite El1, Hl, <- app_assoc in J2. apply Forall_app in J2. rewrite El2. tauto.
Qed.
Lemma run_real ms : forall p p' r, ped_real p -> Forall real_sample ms -> ped_run p ms = Ok (p', r) -> ped_real p'.
Proof.
  induction ms as [|m t IH]; intros p p' r I H E; cbn [ped_run] in E.
  - injection E as <- _. exact I.
  - inv_bind E. destruct a as [q s]. inv_bind Hb. destruct a as [q2 s2]. injection Hb0 as <- _.
    eapply IH; [|exact (Forall_inv_tail H)|exact Ha0]. eapply step_real; [exact I|exact (Forall_inv H)|exact Ha].
Qed.

(** ** step length *)
Lemma max_real b l : Forall has_val (b :: l) ->
  exists M, rmag (max_elem_from (fun u v : magnitude RX => mg_val u <! mg_val v) b l) M /\
    (exists x, In x (b :: l) /\ rmag x M) /\ forall x v, In x (b :: l) -> rmag x v -> v <= M.
Proof.
  revert b. induction l as [|y t IH]; intros b H.
  - destruct (Forall_inv H) as [v Hv]. exists v. cbn. split; [exact Hv|]. split; [exists b; auto|].
    intros x u [<-|[]] Hu. unfold rmag in *. rewrite Hv in Hu. injection Hu as ->. lra.
  - destruct (Forall_inv H) as [v Hv]. destruct (Forall_inv (Forall_inv_tail H)) as [u Hu].
    pose proof (Forall_inv_tail (Forall_inv_tail H)) as Ht.
    cbn [max_elem_from]. unfold rmag in Hv, Hu. rewrite Hv, Hu, rx_ltb.
    destruct (Rltb v u) eqn:E; [apply Rltb_true in E|apply Rltb_false in E].
    + destruct (IH y) as (M & H1 & (x & Hx & Hm) & H3); [constructor; [exists u; exact Hu|exact Ht]|].
      exists M. split; [exact H1|]. split; [exists x; cbn in *; tauto|].
      intros z w [<-|Hz] Hw; [|exact (H3 z w Hz Hw)]. unfold rmag in Hw. rewrite Hv in Hw. injection Hw as <-.
      pose proof (H3 y u (or_introl eq_refl) Hu). lra.
    + destruct (IH b) as (M & H1 & (x & Hx & Hm) & H3); [constructor; [exists v; exact Hv|exact Ht]|].
      exists M. split; [exact H1|]. split; [exists x; cbn in *; tauto|].
      pose proof (H3 b v (or_introl eq_refl) Hv).
      intros z w [<-|[<-|Hz]] Hw.
      * apply (H3 b w); [left; reflexivity|exact Hw].
      * unfold rmag in Hw. rewrite Hu in Hw. injection Hw as <-. lra.
      * apply (H3 z w); [right; exact Hz|exact Hw].
Qed.
Lemma min_real b l : Forall has_val (b :: l) ->
  exists M, rmag (min_elem_from (fun u v : magnitude RX => mg_val u <! mg_val v) b l) M /\
    (exists x, In x (b :: l) /\ rmag x M) /\ forall x v, In x (b :: l) -> rmag x v -> M <= v.
Proof.
  revert b. induction l as [|y t IH]; intros b H.
  - destruct (Forall_inv H) as [v Hv]. exists v. cbn. split; [exact Hv|]. split; [exists b; auto|].
    intros x u [<-|[]] Hu. unfold rmag in *. rewrite Hv in Hu. injection Hu as ->. lra.
  - destruct (Forall_inv H) as [v Hv]. destruct (Forall_inv (Forall_inv_tail H)) as [u Hu].
    pose proof (Forall_inv_tail (Forall_inv_tail H)) as Ht.
    cbn [min_elem_from]. unfold rmag in Hv, Hu. rewrite Hv, Hu, rx_ltb.
    destruct (Rltb u v) eqn:E; [apply Rltb_true in E|apply Rltb_false in E].
    + destruct (IH y) as (M & H1 & (x & Hx & Hm) & H3); [constructor; [exists u; exact Hu|exact Ht]|].
      exists M. split; [exact H1|]. split; [exists x; cbn in *; tauto|].
      intros z w [<-|Hz] Hw; [|exact (H3 z w Hz Hw)]. unfold rmag in Hw. rewrite Hv in Hw. injection Hw as <-.
      pose proof (H3 y u (or_introl eq_refl) Hu). lra.
    + destruct (IH b) as (M & H1 & (x & Hx & Hm) & H3); [constructor; [exists v; exact Hv|exact Ht]|].
      exists M. split; [exact H1|]. split; [exists x; cbn in *; tauto|].
      pose proof (H3 b v (or_introl eq_refl) Hv).
      intros z w [<-|[<-|Hz]] Hw.
      * apply (H3 b w); [left; reflexivity|exact Hw].
      * unfold rmag in Hw. rewrite Hu in Hw. injection Hw as <-. lra.
      * apply (H3 z w); [right; exact Hz|exact Hw].
Qed.

(** the window: newest first, everything up to and including the first element
    more than 700 ms old *)
Lemma window_spec rts (l : list (magnitude RX)) : l <> [] ->
  exists win rest oldest, step_window rts l = win ++ [oldest] /\ l = win ++ oldest :: rest /\
    Forall (fun x => (rts - mg_ts x <= 700)%Z) win /\ (rest = [] \/ (700 < rts - mg_ts oldest)%Z).
Proof.
  induction l as [|x t IH]; intros H; [congruence|]. cbn [step_window].
  destruct (Z.leb_spec (rts - mg_ts x) 700) as [L|L].
  - destruct t as [|y t'].
    + exists [], [], x. cbn. auto.
    + destruct IH as (win & rest & o & E1 & E2 & H1 & H2); [discriminate|].
      exists (x :: win), rest, o. rewrite E1, E2. cbn. repeat split; auto.
  - exists [], t, x. cbn. repeat split; auto.
Qed.

Lemma step_length_real cur before : before <> [] -> Forall has_val before ->
  exists win rest oldest M n L, before = win ++ oldest :: rest /\
    Forall (fun x => (mg_ts cur - mg_ts x <= 700)%Z) win /\ (rest = [] \/ (700 < mg_ts cur - mg_ts oldest)%Z) /\
    (exists x, In x (win ++ [oldest]) /\ rmag x M) /\ (exists x, In x (win ++ [oldest]) /\ rmag x n) /\
    (forall x v, In x (win ++ [oldest]) -> rmag x v -> n <= v <= M) /\
    step_length cur before = (Some L : RX) /\ 0 <= L /\ L ^ 4 = (52 / 100) ^ 4 * (M - n).
Proof.
  intros Hne HR. destruct (@window_spec (mg_ts cur) before Hne) as (win & rest & o & E1 & E2 & H1 & H2).
  unfold step_length. rewrite E1.
  assert (HW : Forall has_val (rev (win ++ [o]))).
  { apply Forall_rev. rewrite E2 in HR. apply Forall_app in HR as [A B]. apply Forall_app. split; [exact A|].
    constructor; [exact (Forall_inv B)|constructor]. }
  assert (HI : forall x, In x (win ++ [o]) <-> In x (rev (win ++ [o]))) by (intros; apply in_rev).
  destruct (rev (win ++ [o])) as [|b l] eqn:Er.
  { apply (f_equal (@List.length _)) in Er. rewrite rev_length, app_length in Er. cbn in Er. lia. }
  destruct (max_real HW) as (M & M1 & (x & Hx & Hm) & M3).
  destruct (min_real HW) as (n & n1 & (x' & Hx' & Hm') & n3).
  assert (D : 0 <= M - n) by (pose proof (M3 x' n Hx' Hm'); lra).
  exists win, rest, o, M, n, (52 / 100 * sqrt (sqrt (M - n))).
  split; [exact E2|]. split; [exact H1|]. split; [exact H2|].
  split; [exists x; split; [apply HI; exact Hx|exact Hm]|].
  split; [exists x'; split; [apply HI; exact Hx'|exact Hm']|].
  split; [intros z v Hz Hv; apply HI in Hz; split; [exact (n3 z v Hz Hv)|exact (M3 z v Hz Hv)]|].
  unfold rmag in M1, n1. rewrite M1, n1, rx_sub, rx_sqrt, rx_sqrt by (auto using sqrt_pos).
  rewrite rx_lit, rx_mul by lra. split; [reflexivity|].
  pose proof (sqrt_pos (sqrt (M - n))) as P. split; [lra|].
  rewrite Rpow_mult_distr. f_equal.
  replace (sqrt (sqrt (M - n)) ^ 4) with ((sqrt (sqrt (M - n)) * sqrt (sqrt (M - n))) * (sqrt (sqrt (M - n)) * sqrt (sqrt (M - n)))) by ring.
  rewrite sqrt_sqrt by apply sqrt_pos. apply sqrt_sqrt. exact D.
Qed.

(** ** the signal in terms of the raw history *)
Lemma filter_suffix A (ts : A -> Z) now w a b : sorted_ts ts (a ++ b) ->
  Forall (fun x => (w <= now - ts x)%Z) a ->
  match b with [] => True | x :: _ => (now - ts x < w)%Z end -> newest_within ts now w (a ++ b) = b.
Proof.
  intros S Ha Hb. unfold newest_within. rewrite filter_app.
  assert (E1 : filter (fun x => (now - ts x <? w)%Z) a = []).
  { clear -Ha. induction a as [|x t IH]; [reflexivity|]. cbn.
    pose proof (Forall_inv Ha) as H1. cbn in H1. destruct (Z.ltb_spec (now - ts x) w); [lia|].
    apply IH. exact (Forall_inv_tail Ha). }
  assert (E2 : filter (fun x => (now - ts x <? w)%Z) b = b).
  { apply sorted_suffix in S. destruct b as [|y t]; [reflexivity|].
    assert (H : forall z, In z (y :: t) -> (now - ts z <? w)%Z = true).
    { intros z Hz. pose proof (sorted_head S Hz). lia. }
    clear -H. induction (y :: t) as [|z l IH]; [reflexivity|]. cbn. rewrite H by (left; reflexivity).
    f_equal. apply IH. intros u Hu. apply H. right; exact Hu. }
  rewrite E1, E2. reflexivity.
Qed.

Lemma filter_sorted A (ts : A -> Z) f l : sorted_ts ts l -> sorted_ts ts (filter f l).
Proof.
  induction l as [|x t IH]; intros S; [exact S|]. apply StronglySorted_inv in S as [S1 S2]. cbn.
  destruct (f x); [|exact (IH S1)]. constructor; [exact (IH S1)|].
  rewrite Forall_forall in *. intros y Hy. apply filter_In in Hy. apply S2. tauto.
Qed.
Lemma sorted_last A (ts : A -> Z) l x : sorted_ts ts (l ++ [x]) -> sorted_ts ts l /\ latest ts l (ts x).
Proof.
  induction l as [|y t IH]; intros S; [split; constructor|]. cbn in S. apply StronglySorted_inv in S as [S1 S2].
  destruct (IH S1) as [A1 A2]. apply Forall_app in S2 as [S2 S3]. pose proof (Forall_inv S3).
  split; constructor; auto.
Qed.

Lemma acc_history ms : forall p r, ped_run ped0 ms = Ok (p, r) -> sorted_ts (@st_ts _) ms ->
  exists d, filter is_acc ms = d ++ pd_acc p /\
    Forall (fun x => exists y, In y ms /\ (5000 < st_ts y - st_ts x)%Z) d.
Proof.
  induction ms as [|m ms IH] using rev_ind; intros p r E S.
  - cbn in E. injection E as <- _. exists []. split; [reflexivity|constructor].
  - apply ped_run_snoc in E as (p1 & r1 & ss & E1 & E2 & _). destruct (sorted_last _ _ S) as [S1 S2].
    destruct (IH _ _ E1 S1) as (d & Hd & HD).
    destruct (ped_step_spec p1 m) as (q1 & q2 & ss' & U & U2 & _ & Hacc & _).
    rewrite E2 in U2. injection U2 as <- <-. rewrite Hacc.
    destruct (update_ok p1 m) as (q1' & U' & _ & _ & _ & _ & _ & Hna & Ha). rewrite U in U'. injection U' as <-.
    rewrite filter_app. cbn [filter]. unfold is_acc at 2.
    assert (HD' : Forall (fun x => exists y, In y (ms ++ [m]) /\ (5000 < st_ts y - st_ts x)%Z) d).
    { eapply Forall_impl; [|exact HD]. intros x (y & Hy & L). exists y. split; [apply in_or_app; auto|exact L]. }
    destruct (s_type (st_data m)) eqn:Et;
      try (destruct (Hna ltac:(discriminate)) as [-> _]; exists d; rewrite app_nil_r; auto).
    destruct (Ha eq_refl) as (a & b & -> & Hab & Hlt & _).
    exists (d ++ a). rewrite Hd, Hab, !app_assoc. split; [reflexivity|]. apply Forall_app. split; [exact HD'|].
    eapply Forall_impl; [|exact Hlt]. cbn. intros x L. exists m. split; [apply in_or_app; right; left; reflexivity|lia].
Qed.

Lemma newest_within_drop A (ts : A -> Z) now w d l : Forall (fun x => (w <= now - ts x)%Z) d ->
  newest_within ts now w (d ++ l) = newest_within ts now w l.
Proof.
  intros H. unfold newest_within. rewrite filter_app. replace (filter _ d) with (@nil A); [reflexivity|].
  symmetry. induction d as [|x t IH]; [reflexivity|]. cbn. pose proof (Forall_inv H) as H1. cbn in H1.
  destruct (Z.ltb_spec (now - ts x) w); [lia|]. apply IH. exact (Forall_inv_tail H).
Qed.

Lemma signal_history ms m p r p1 : non_decreasing (map (@st_ts _) (ms ++ [m])) -> Forall real_sample (ms ++ [m]) ->
  s_type (st_data m) = ACCELEROMETER -> st_ts m <> 0%Z ->
  ped_run ped0 ms = Ok (p, r) -> ped_update p m = Ok p1 ->
  let wide := acc_within (st_ts m) 2500 (ms ++ [m]) in let narrow := acc_within (st_ts m) 200 (ms ++ [m]) in
  pd_mags p1 = pd_mags p ++
    [mkMagn (st_ts m) (Some (mean narrow - (rsum wide + mean narrow) / INR (List.length wide)) : RX)].
Proof.
  intros S HR Ht Hz E U. cbv zeta. apply nondec_sorted in S. destruct (sorted_last _ _ S) as [S1 S2].
  destruct (acc_history E S1) as (d & Hd & HD).
  apply Forall_app in HR as [HR1 HR2].
  assert (HP : ped_real p) by (eapply run_real; [exact ped0_real|exact HR1|exact E]).
  assert (HR : Forall real_sample (pd_acc p ++ [m])) by (apply Forall_app; split; [exact (pr_acc HP)|exact HR2]).
  destruct (@filtered_real (pd_acc p) m HR) as ((a1 & a2) & (b1 & b2) & A1 & B1 & A2 & A3 & B2 & B3 & EF).
  cbn [fst snd] in *. cbv zeta in EF.
  assert (SA : sorted_ts (@st_ts _) (pd_acc p ++ [m])).
  { apply sorted_snoc.
    - apply (fun h => @filter_sorted _ (@st_ts _) is_acc ms h) in S1. rewrite Hd in S1. exact (sorted_suffix _ _ S1).
    - assert (L : latest (@st_ts _) (filter is_acc ms) (st_ts m)).
      { unfold latest in *. rewrite Forall_forall in *. intros x Hx. apply filter_In in Hx. apply S2. tauto. }
      rewrite Hd in L. apply latest_app in L. tauto. }
  assert (W : forall w l1 l2, (w <= 5000)%Z -> (0 < w)%Z -> pd_acc p = l1 ++ l2 -> Forall (fun x => (w <= st_ts m - st_ts x)%Z) l1 ->
    match l2 with [] => True | x :: _ => (st_ts m - st_ts x < w)%Z end ->
    newest_within (@st_ts _) (st_ts m) w (filter is_acc (ms ++ [m])) = l2 ++ [m]).
  { intros w l1 l2 Hw Hw0 El H1 H2. rewrite filter_app, Hd. cbn [filter]. unfold is_acc at 1. rewrite Ht.
    rewrite <- app_assoc, newest_within_drop.
    - rewrite El, <- app_assoc. apply filter_suffix; auto.
      + rewrite app_assoc, <- El. exact SA.
      + destruct l2; cbn; [lia|exact H2].
    - eapply Forall_impl; [|exact HD]. intros x (y & Hy & L). unfold latest in S2. rewrite Forall_forall in S2.
      pose proof (S2 y Hy). cbn in *. lia. }
  destruct (update_ok p m) as (p1' & E1 & Hn & _ & _ & _ & _ & _ & Ha). rewrite U in E1. injection E1 as <-.
  assert (EU := U). unfold ped_update in EU. rewrite Ht, EF in EU. cbn [bind mg_ts] in EU.
  destruct (Z.eqb_spec (st_ts m) 0) as [C|_]; [contradiction|]. inv_bind EU. injection Hb as <-. cbn [pd_mags].
  unfold acc_within. rewrite (W 2500%Z a1 a2), (W 200%Z b1 b2) by (auto; lia). reflexivity.
Qed.

(** ** a device at rest *)
Lemma mean_const (l : list R) c : l <> [] -> Forall (fun x => x = c) l -> rsum l = INR (List.length l) * c /\ mean l = c.
Proof.
  intros Hne H. assert (E : rsum l = INR (List.length l) * c).
  { clear Hne. induction l as [|x t IH]; [rewrite rsum_nil; cbn [List.length INR]; ring|]. rewrite rsum_cons, (IH (Forall_inv_tail H)), (Forall_inv H).
    cbn [List.length]. rewrite S_INR. ring. }
  split; [exact E|]. unfold mean. rewrite E. field. apply not_0_INR. destruct l; [congruence|discriminate].
Qed.

Definition rests p (c : R) : Prop := Forall (fun x => mag_of x = c) (pd_acc p) /\
  Forall (fun g => exists v, rmag g v /\ v <= 0) (pd_mags p).

Lemma rest_step p m p2 ss c : 0 <= c -> ped_real p -> rests p c -> real_sample m -> (is_acc m = true -> mag_of m = c) ->
  ped_step p m = Ok (p2, ss) -> ss = [] /\ rests p2 c.
Proof.
  intros Hc HP [R1 R2] Hm Hmc E. destruct (ped_step_spec p m) as (p1 & p2' & ss' & E1 & E2 & Hn & Hacc & H).
  rewrite E in E2. injection E2 as <- <-.
  destruct (update_ok p m) as (p1' & E1' & _ & _ & _ & _ & _ & Hna & Ha). rewrite E1 in E1'. injection E1' as <-.
  assert (RA : Forall (fun x => mag_of x = c) (pd_acc p1)).
  { destruct (s_type (st_data m)) eqn:Et; try (destruct (Hna ltac:(discriminate)) as [-> _]; exact R1).
    destruct (Ha eq_refl) as (a & b & -> & Hab & _). apply Forall_app. rewrite Hab in R1. apply Forall_app in R1.
    split; [tauto|]. constructor; [|constructor]. apply Hmc. unfold is_acc. rewrite Et. reflexivity. }
  assert (RM : Forall (fun g => exists v, rmag g v /\ v <= 0) (pd_mags p1)).
  { destruct Hn as [->|(g & -> & _ & _ & Et & Hg)]; [exact R2|]. apply Forall_app. split; [exact R2|].
    constructor; [|constructor].
    assert (HR : Forall real_sample (pd_acc p ++ [m])) by (apply Forall_app; split; [exact (pr_acc HP)|auto]).
    assert (HC : Forall (fun x => mag_of x = c) (pd_acc p ++ [m])).
    { apply Forall_app. split; [exact R1|]. constructor; [|constructor]. apply Hmc. unfold is_acc. rewrite Et. reflexivity. }
    destruct (@filtered_real (pd_acc p) m HR) as ((a1 & a2) & (b1 & b2) & A1 & B1 & _ & _ & _ & _ & EF).
    cbn [fst snd] in *. cbv zeta in EF. rewrite Hg in EF. injection EF as ->. eexists. split; [reflexivity|].
    assert (HA : forall l1 l2, pd_acc p = l1 ++ l2 -> Forall (fun x => x = c) (map mag_of (l2 ++ [m])) /\ map mag_of (l2 ++ [m]) <> []).
    { intros l1 l2 El. rewrite El, <- app_assoc in HC. apply Forall_app in HC as [_ HC]. split.
      - rewrite Forall_forall in *. intros x Hx. apply in_map_iff in Hx as (y & <- & Hy). apply HC. exact Hy.
      - rewrite map_app. destruct (map mag_of l2); discriminate. }
    destruct (HA _ _ A1) as [F1 N1]. destruct (HA _ _ B1) as [F2 N2].
    destruct (mean_const N1 F1) as [Sw _]. destruct (mean_const N2 F2) as [_ Mn]. rewrite Sw, Mn.
    assert (P : 0 < INR (List.length (map mag_of (a2 ++ [m])))).
    { apply lt_0_INR. destruct (map mag_of (a2 ++ [m])); [congruence|cbn; lia]. }
    set (n := INR _) in *. clearbody n. replace (c - (n * c + c) / n) with (- (c / n)) by (field; lra).
    assert (0 <= c / n) by (apply Rmult_le_pos; [lra|]; left; apply Rinv_0_lt_compat; exact P). lra. }
  unfold rests. rewrite Hacc.
  destruct H as [(_ & -> & ->)|(_ & (l & x & a & b & El1 & El2 & Hl & _) & H)]; [auto|].
  assert (RM2 : Forall (fun g => exists v, rmag g v /\ v <= 0) (pd_mags p2)).
  { rewrite El2. rewrite El1, Hl, <- app_assoc in RM. apply Forall_app in RM. tauto. }
  destruct H as [(-> & _)|(l' & prev & cur & Em & Em1 & Hcu & C & _)]; [auto|].
  exfalso. assert (HRl : ped_real p1) by (eapply update_real; eauto).
  rewrite Em1 in RM. apply Forall_app in RM as [_ RM].
  destruct (Forall_inv RM) as (v & Hv & _). destruct (Forall_inv (Forall_inv_tail RM)) as (u & Hu & Hle).
  apply (crossing_real p Hv Hu) in C. unfold threshold in C. lra.
Qed.

Lemma rest_run ms : forall p p' r c, 0 <= c -> ped_real p -> rests p c -> Forall real_sample ms ->
  Forall (fun m => is_acc m = true -> mag_of m = c) ms -> ped_run p ms = Ok (p', r) -> List.concat r = [].
Proof.
  induction ms as [|m t IH]; intros p p' r c Hc HP HS H1 H2 E; cbn [ped_run] in E.
  - injection E as _ <-. reflexivity.
  - inv_bind E. destruct a as [q s]. inv_bind Hb. destruct a as [q2 s2]. injection Hb0 as <- <-.
    destruct (@rest_step p m q s c Hc HP HS (Forall_inv H1) (Forall_inv H2) Ha) as [-> HS2].
    cbn [List.concat app]. eapply (IH q q2 s2 c); auto.
    + eapply step_real; [exact HP|exact (Forall_inv H1)|exact Ha].
    + exact (Forall_inv_tail H1).
    + exact (Forall_inv_tail H2).
Qed.

(** ** detection *)
Lemma detection p m p1 p2 ss : ped_real p -> real_sample m -> ped_update p m = Ok p1 -> ped_step p m = Ok (p2, ss) ->
  (ss <> [] <-> exists l prev cur a b, pd_mags p = l ++ [prev] /\ pd_mags p1 = l ++ [prev; cur] /\ (2 <= List.length l)%nat /\
     rmag prev a /\ rmag cur b /\ a < threshold < b /\ (pd_possible p + 300 < st_ts m)%Z /\ mg_ts cur = st_ts m).
Proof.
  intros HP Hm U E. pose proof (update_real HP Hm U) as HP1.
  destruct (ped_step_spec p m) as (p1' & p2' & ss' & E1 & E2 & Hn & Hacc & H).
  rewrite E in E2. injection E2 as <- <-. rewrite U in E1. injection E1 as <-.
  assert (V : forall l prev cur, pd_mags p1 = l ++ [prev; cur] -> exists a b, rmag prev a /\ rmag cur b).
  { intros l prev cur El. pose proof (pr_mags HP1) as Q. rewrite El in Q. apply Forall_app in Q as [_ Q].
    destruct (Forall_inv Q) as [a Ha]. destruct (Forall_inv (Forall_inv_tail Q)) as [b Hb]. eauto. }
  split.
  - intros Hss. destruct H as [(_ & -> & _)|(Hl & _ & [(-> & _)|(l' & prev & cur & Em & Em1 & Hc & C & _)])]; try congruence.
    destruct (V _ _ _ Em1) as (a & b & Ha & Hb). exists l', prev, cur, a, b.
    apply (crossing_real p Ha Hb) in C as (C1 & C2 & C3).
    rewrite Em1, app_length in Hl. cbn in Hl. repeat split; auto; lia.
  - intros (l & prev & cur & a & b & Em & Em1 & Hl & Ha & Hb & Ht & Hp & Hc) ->.
    destruct H as [(L & _)|(_ & _ & [(_ & _ & _ & _ & H)|(l' & pr & cu & _ & _ & _ & _ & D & _)])].
    + rewrite Em1, app_length in L. cbn in L. lia.
    + assert (C : crossing p prev cur = false).
      { eapply H; [|exact Em1]. rewrite Em, Em1. intros Q. apply (f_equal (@List.length _)) in Q.
        rewrite !app_length in Q. cbn in Q. lia. }
      assert (C' : crossing p prev cur = true); [|congruence].
      apply (crossing_real p Ha Hb). repeat split; try tauto. lia.
    + discriminate.
Qed.
End PedReal.
