(** Stand-alone pedometer (C69, C70). *)
From Coq Require Import Reals Lra Lia ZArith.
From Verif Require Import Base Lib NumOrd NumReal LibR Sensors SaPed Spec_Sensors Spec_SaPed Pf_Angle Pf_Sensors.
Set Implicit Arguments.
Local Open Scope nat_scope.

Section P.
Context {F : Type} {NF : Num F}.
Notation sample := (stamped (sensor F)).
Implicit Types (p : pedometer F) (m : sample) (g : magnitude F) (bs : list (list sample)).

(** * One call *)
Lemma single_core p m : s_type (st_data m) = ACCELEROMETER -> saped_update p [m] = ped_update p m.
Proof.
  intros H. unfold saped_update, saped_push_all, saped_push, ped_update. cbn [pd_acc pd_mags pd_times pd_size pd_possible pd_steptime].
  rewrite H. destruct (filtered_magnitude _ _); [|reflexivity..]. cbn [bind]. destruct (skip_while _ _); reflexivity.
Qed.
Lemma batch_core p m : s_type (st_data m) = ACCELEROMETER -> saped_batch p [m] = ped_step p m.
Proof. intros H. unfold saped_batch, ped_step. rewrite single_core by exact H. reflexivity. Qed.
Lemma run_core ms : forall p, Forall (fun m => s_type (st_data m) = ACCELEROMETER) ms ->
  saped_run p (map (fun m => [m]) ms) = ped_run p ms.
Proof.
  induction ms as [|m t IH]; intros p H; [reflexivity|]. cbn [map saped_run ped_run].
  rewrite batch_core by exact (Forall_inv H). destruct (ped_step p m) as [[q s]| | |]; [|reflexivity..]. cbn [bind].
  rewrite IH by exact (Forall_inv_tail H). reflexivity.
Qed.

Lemma push_ok p m : exists p1 g a b, saped_push p m = Ok p1 /\ filtered_magnitude (pd_acc p ++ [m]) (st_ts m) = Ok g /\
  pd_mags p1 = (if (mg_ts g =? 0)%Z then pd_mags p else pd_mags p ++ [g]) /\ pd_size p1 = pd_size p /\ pd_times p1 = pd_times p /\
  pd_possible p1 = pd_possible p /\ pd_steptime p1 = pd_steptime p /\
  pd_acc p1 = b ++ [m] /\ pd_acc p = a ++ b /\ Forall (fun y => (5000 < st_ts m - st_ts y)%Z) a.
Proof.
  unfold saped_push. destruct (filtered_ok (pd_acc p) m) as (g & Hg & _). rewrite Hg. cbn [bind].
  destruct (@skip_while_last _ (fun x : sample => (2 * 2500 <? st_ts m - st_ts x)%Z) (pd_acc p) m)
    as (a & b & -> & Hab & H3 & _); [lia|]. cbn [bind].
  eexists _, g, a, b. split; [reflexivity|]. cbn [pd_acc pd_mags pd_times pd_size pd_possible pd_steptime].
  repeat split; auto. eapply Forall_impl; [|exact H3]. cbn. intros; lia.
Qed.

Lemma push_all_ok ms : forall p, exists p1, saped_push_all p ms = Ok p1 /\
  (exists gs, pd_mags p1 = pd_mags p ++ gs) /\ pd_size p1 = pd_size p /\ pd_times p1 = pd_times p /\
  pd_possible p1 = pd_possible p /\ pd_steptime p1 = pd_steptime p.
Proof.
  induction ms as [|m t IH]; intros p.
  - exists p. cbn. repeat split; auto. exists []. rewrite app_nil_r. reflexivity.
  - destruct (push_ok p m) as (q & g & _ & _ & E & _ & H1 & H2 & H3 & H4 & H5 & _). cbn [saped_push_all]. rewrite E. cbn [bind].
    destruct (IH q) as (p1 & -> & (g2 & K1) & K2 & K3 & K4 & K5). exists p1. split; [reflexivity|].
    repeat split; try congruence. rewrite K1, H1. destruct (mg_ts g =? 0)%Z; [eauto|]. exists (g :: g2). rewrite <- app_assoc. reflexivity.
Qed.

(** * calculateSteps *)
Definition cross (prev cur : magnitude F) (poss : Z) (tb : F) : bool :=
  (mg_val prev <! min_threshold) && (min_threshold <! mg_val cur) && (300 <? mg_ts cur - poss)%Z && (f0 <! tb).
(** detection with the model's extra test *)
Fixpoint det (tb : F) (poss : Z) (before gs : list (magnitude F)) : list (step F) :=
  match gs with
  | [] => []
  | c :: t =>
      match before with
      | [] => det tb poss [c] t
      | p :: _ => if cross p c poss tb then mkStep (mg_ts c) (step_length c before) :: det tb (mg_ts c) (c :: before) t
                  else det tb poss (c :: before) t
      end
  end.
Definition last_step (poss : Z) (ss : list (step F)) : Z := List.last (map (@sp_ts F) ss) poss.
Lemma last_step_cons poss s ss : last_step poss (s :: ss) = last_step (sp_ts s) ss.
Proof.
  unfold last_step. cbn [map]. destruct (map (@sp_ts F) ss) as [|x t] eqn:E; [reflexivity|].
  change (List.last (sp_ts s :: x :: t) poss) with (List.last (x :: t) poss).
  clear. revert x. induction t as [|y t IH]; intros x; [reflexivity|]. change (List.last (y :: t) poss = List.last (y :: t) (sp_ts s)). apply IH.
Qed.

Lemma fold_det mags tb : forall rest before poss st times steps,
  mags = rev before ++ rest -> before <> [] ->
  exists st' times', fold_left (ped_body mags tb) (seq (List.length before) (List.length rest)) (Ok (poss, st, times, steps)) =
    Ok (last_step poss (det tb poss before rest), st', times', steps ++ det tb poss before rest).
Proof.
  induction rest as [|c t IH]; intros before poss st times steps E Hne.
  - cbn. exists st, times. rewrite app_nil_r. reflexivity.
  - cbn [List.length seq fold_left]. destruct before as [|pr bt]; [congruence|].
    assert (N1 : nth_error mags (List.length (pr :: bt)) = Some c).
    { rewrite E, nth_error_app2 by (rewrite rev_length; lia). rewrite rev_length, Nat.sub_diag. reflexivity. }
    assert (N2 : nth_error mags (List.length bt) = Some pr).
    { rewrite E. cbn [rev]. rewrite <- app_assoc, nth_error_app2 by (rewrite rev_length; lia). rewrite rev_length, Nat.sub_diag. reflexivity. }
    assert (N3 : firstn (List.length (pr :: bt)) mags = rev (pr :: bt)).
    { rewrite E. rewrite <- (rev_length (pr :: bt)). rewrite firstn_app, Nat.sub_diag, firstn_all. cbn. apply app_nil_r. }
    assert (E' : mags = rev (c :: pr :: bt) ++ t) by (rewrite E; cbn [rev]; rewrite <- !app_assoc; reflexivity).
    unfold ped_body at 2. cbn [bind]. cbn [List.length] in N1, N3 |- *. rewrite N1, N2, N3, rev_involutive.
    fold (cross pr c poss tb). cbn [det]. destruct (cross pr c poss tb) eqn:C.
    + match goal with |- context [Ok (mg_ts c, mg_ts c, ?tm, steps ++ [?s])] => destruct (IH (c :: pr :: bt) (mg_ts c) (mg_ts c) tm (steps ++ [s]) E' ltac:(discriminate)) as (st' & times' & IH') end.
      cbn [List.length] in IH'. rewrite IH'. exists st', times'. rewrite last_step_cons, <- app_assoc. reflexivity.
    + destruct (IH (c :: pr :: bt) poss st times steps E' ltac:(discriminate)) as (st' & times' & IH').
      cbn [List.length] in IH'. rewrite IH'. exists st', times'. reflexivity.
Qed.

(** the state just before calculateSteps: [rest] is what it examines *)
Lemma steps_spec p : 1 <= pd_size p -> 3 < List.length (pd_mags p) ->
  let before := rev (firstn (pd_size p) (pd_mags p)) in let rest := skipn (pd_size p) (pd_mags p) in
  let ss := det (time_between (pd_times p)) (pd_possible p) before rest in
  exists p2, ped_steps p = Ok (p2, ss) /\ pd_acc p2 = pd_acc p /\ pd_size p2 = pd_size p /\
    pd_possible p2 = last_step (pd_possible p) ss /\
    exists l x a b, pd_mags p = l ++ [x] /\ pd_mags p2 = b ++ [x] /\ l = a ++ b /\
      Forall (fun y => (1400 < mg_ts x - mg_ts y)%Z) a /\
      match b with [] => True | y :: _ => (mg_ts x - mg_ts y <= 1400)%Z end.
Proof.
  intros Hs Hl. cbv zeta. unfold ped_steps. destruct (Nat.leb_spec (List.length (pd_mags p)) 3) as [C|_]; [lia|].
  assert (Hne : pd_mags p <> []) by (destruct (pd_mags p); [cbn in Hl; lia|discriminate]).
  destruct (rev_mags Hne) as (l & x & El). destruct (trim_mags_ok l x) as (a & b & Htr & Hab & Ha & Hb).
  unfold trim_mags in Htr. cbv zeta in Htr. rewrite <- El in Htr.
  set (before := rev (firstn (pd_size p) (pd_mags p))). set (rest := skipn (pd_size p) (pd_mags p)).
  assert (EM : pd_mags p = rev before ++ rest) by (unfold before, rest; rewrite rev_involutive, firstn_skipn; reflexivity).
  assert (HF : exists st' times', fold_left (ped_body (pd_mags p) (time_between (pd_times p)))
      (seq (pd_size p) (List.length (pd_mags p) - pd_size p)) (Ok (pd_possible p, pd_steptime p, pd_times p, [])) =
    Ok (last_step (pd_possible p) (det (time_between (pd_times p)) (pd_possible p) before rest), st', times',
        det (time_between (pd_times p)) (pd_possible p) before rest)).
  { destruct (Nat.le_gt_cases (pd_size p) (List.length (pd_mags p))) as [L|L].
    - assert (Lb : List.length before = pd_size p) by (unfold before; rewrite rev_length, firstn_length; lia).
      assert (Lr : List.length rest = List.length (pd_mags p) - pd_size p) by (unfold rest; rewrite skipn_length; reflexivity).
      destruct (@fold_det (pd_mags p) (time_between (pd_times p)) rest before (pd_possible p) (pd_steptime p) (pd_times p) [] EM) as (st' & times' & H).
      + intros C. rewrite C in Lb. cbn in Lb. lia.
      + rewrite Lb, Lr in H. rewrite H. exists st', times'. reflexivity.
    - assert (Er : rest = []) by (unfold rest; apply skipn_all2; lia).
      rewrite seq_nil by lia. rewrite Er. cbn. exists (pd_steptime p), (pd_times p). reflexivity. }
  destruct HF as (st' & times' & HF). rewrite HF. cbn [bind]. rewrite Htr. cbn [bind].
  eexists. split; [reflexivity|]. cbn. do 3 (split; [reflexivity|]). exists l, x, a, b. auto.
Qed.

Lemma steps_few p : List.length (pd_mags p) <= 3 -> ped_steps p = Ok (p, []).
Proof. intros H. unfold ped_steps. destruct (Nat.leb_spec (List.length (pd_mags p)) 3); [reflexivity|lia]. Qed.

(** * Any order of calls *)
Lemma calls_ok cs : forall p, (pd_mags p = [] \/ 1 <= pd_size p) -> exists p' r, saped_calls p cs = Ok (p', r) /\
  spaced (pd_possible p) (map (@sp_ts F) (List.concat r)).
Proof.
  induction cs as [|[b|] t IH]; intros p Hp.
  - exists p, []. cbn. auto.
  - cbn [saped_calls]. unfold saped_update.
    match goal with |- context [saped_push_all ?q b] => destruct (push_all_ok b q) as (p1 & -> & _ & H2 & _ & H4 & _) end.
    cbn [bind]. cbn [pd_size] in H2. destruct (IH p1) as (p' & r & E & S); [right; lia|]. rewrite H4 in S. cbn in S. eauto.
  - cbn [saped_calls]. destruct (Nat.le_gt_cases (List.length (pd_mags p)) 3) as [L|L].
    + rewrite steps_few by exact L. cbn [bind]. destruct (IH p Hp) as (p' & r & E & S). rewrite E. cbn [bind]. exists p', ([] :: r). auto.
    + destruct Hp as [Hp|Hp]; [rewrite Hp in L; cbn in L; lia|].
      destruct (@steps_spec p Hp L) as (p2 & -> & _ & Hs & Hpo & _). cbn [bind].
      set (ss := det _ _ _ _) in *.
      destruct (IH p2) as (p' & r & E & S); [right; lia|]. rewrite E. cbn [bind]. exists p', (ss :: r). split; [reflexivity|].
      cbn [List.concat]. rewrite map_app. apply spaced_app. rewrite Hpo in S. split; [|exact S].
      unfold ss. clear. generalize (rev (firstn (pd_size p) (pd_mags p))) (pd_possible p) (time_between (F:=F) (pd_times p)).
      induction (skipn (pd_size p) (pd_mags p)) as [|c t IH]; intros before poss tb; cbn [det map spaced]; auto.
      destruct before as [|pr bt]; [apply IH|]. destruct (cross pr c poss tb) eqn:C; [|apply IH].
      cbn [map spaced sp_ts]. split; [|apply IH]. unfold cross in C. rewrite !andb_true_iff in C. destruct C as [[_ C] _]. lia.
Qed.

(** * The signal *)
Lemma steady_sorted A (ts : A -> Z) w l : steady w (map ts l) -> sorted_ts ts l.
Proof.
  induction l as [|x t IH]; intros H; [constructor|]. cbn [map steady] in H. destruct H as [H1 H2].
  specialize (IH H2). constructor; [exact IH|]. destruct t as [|y t]; [constructor|]. cbn [map] in H1.
  apply StronglySorted_inv in IH as [_ IH]. constructor; [lia|]. eapply Forall_impl; [|exact IH]. cbn. intros; lia.
Qed.
Lemma steady_app w a b : steady w (a ++ b) -> steady w a /\ steady w b.
Proof.
  induction a as [|x t IH]; intros H; [split; [exact I|exact H]|]. cbn [app steady] in *. destruct H as [H1 H2].
  destruct (IH H2) as [K1 K2]. split; [|exact K2]. split; [|exact K1]. destruct t; [exact I|exact H1].
Qed.
Lemma steady_adjacent w a x y b : steady w (a ++ x :: y :: b) -> (0 <= y - x <= w)%Z.
Proof. intros H. apply steady_app in H as [_ H]. cbn in H. tauto. Qed.

Definition acc_inv (h : list sample) p : Prop :=
  exists d, h = d ++ pd_acc p /\ Forall (fun x => exists y, In y h /\ (5000 < st_ts y - st_ts x)%Z) d.

Lemma window_of h p m w : acc_inv h p -> sorted_ts (@st_ts _) (h ++ [m]) -> (0 < w <= 5000)%Z ->
  exists b, skip_while (fun x : sample => (w <=? st_ts m - st_ts x)%Z) (pd_acc p ++ [m]) = Ok b /\
    b = newest_within (@st_ts _) (st_ts m) w (h ++ [m]) /\ (0 < List.length b <= List.length (h ++ [m])).
Proof.
  intros (d & Hd & HD) S Hw.
  destruct (@skip_while_last _ (fun x : sample => (w <=? st_ts m - st_ts x)%Z) (pd_acc p) m) as (a & b & E & Hab & H3 & H4); [lia|].
  exists (b ++ [m]). split; [exact E|]. destruct (sorted_last _ _ S) as [S1 S2]. split.
  - rewrite Hd, <- app_assoc, newest_within_drop.
    + rewrite Hab, <- app_assoc. symmetry. apply filter_suffix.
      * rewrite app_assoc, <- Hab. rewrite Hd, <- app_assoc in S. exact (sorted_suffix _ _ S).
      * eapply Forall_impl; [|exact H3]. cbn. intros; lia.
      * destruct b; cbn; [lia|]. cbn in H4. lia.
    + eapply Forall_impl; [|exact HD]. intros x (y & Hy & L). unfold latest in S2. rewrite Forall_forall in S2.
      pose proof (S2 y Hy). cbn in *. lia.
  - rewrite Hd, Hab, !app_length. cbn. lia.
Qed.

Lemma push_signal h p m : acc_inv h p -> sorted_ts (@st_ts _) (h ++ [m]) -> st_ts m <> 0%Z ->
  @sane F NF (List.length (h ++ [m])) ->
  exists p1, saped_push p m = Ok p1 /\ pd_mags p1 = pd_mags p ++ [signal_at h m] /\ acc_inv (h ++ [m]) p1 /\
    pd_size p1 = pd_size p /\ pd_possible p1 = pd_possible p.
Proof.
  intros I S Hz [_ Hc]. destruct (push_ok p m) as (p1 & g & a & b & E & Eg & Em & H2 & _ & H4 & _ & Ha & Hab & HA).
  exists p1. split; [exact E|].
  destruct (@window_of h p m 2500 I S ltac:(lia)) as (bw & W1 & W2 & W3).
  destruct (@window_of h p m 200 I S ltac:(lia)) as (bn & N1 & N2 & N3).
  assert (G : g = signal_at h m).
  { unfold filtered_magnitude in Eg. rewrite W1, N1 in Eg. cbn [bind] in Eg.
    assert (Z1 : forall l : list sample, 0 < List.length l <= List.length (h ++ [m]) -> ((fofnat (List.length l) : F) =! f0) = false).
    { intros l Hl. destruct (List.length l) as [|i] eqn:El; [lia|]. apply Hc. lia. }
    rewrite (Z1 bw W3), (Z1 bn N3) in Eg. cbn [orb] in Eg. unfold signal_at. rewrite <- W2, <- N2. injection Eg as <-. reflexivity. }
  rewrite Em, G. unfold signal_at at 1. cbn [mg_ts]. destruct (Z.eqb_spec (st_ts m) 0) as [C|_]; [contradiction|].
  split; [reflexivity|]. split; [|auto]. destruct I as (d & Hd & HD). exists (d ++ a). rewrite Ha, Hd, Hab, !app_assoc. split; [reflexivity|].
  apply Forall_app. split.
  - eapply Forall_impl; [|exact HD]. intros x (y & Hy & L). exists y. split; [|exact L].
    rewrite Hd, Hab in Hy. rewrite !in_app_iff in *. tauto.
  - eapply Forall_impl; [|exact HA]. cbn. intros x L. exists m. split; [rewrite !in_app_iff; cbn; tauto|lia].
Qed.

Lemma push_all_signal b : forall h p, acc_inv h p -> sorted_ts (@st_ts _) (h ++ b) -> Forall (fun m => st_ts m <> 0%Z) b ->
  @sane F NF (List.length (h ++ b)) ->
  exists p1, saped_push_all p b = Ok p1 /\ pd_mags p1 = pd_mags p ++ signal_from h b /\ acc_inv (h ++ b) p1 /\
    pd_size p1 = pd_size p /\ pd_possible p1 = pd_possible p.
Proof.
  induction b as [|m t IH]; intros h p I S Hz Hc.
  - exists p. cbn. rewrite !app_nil_r. auto.
  - assert (E1 : h ++ m :: t = (h ++ [m]) ++ t) by (rewrite <- app_assoc; reflexivity). rewrite E1 in *.
    assert (S1 : sorted_ts (@st_ts _) (h ++ [m])).
    { clear -S. induction (h ++ [m]) as [|x l IHl]; [constructor|]. cbn in S. apply StronglySorted_inv in S as [S1 S2].
      constructor; [exact (IHl S1)|]. apply Forall_app in S2. tauto. }
    destruct (@push_signal h p m I S1 (Forall_inv Hz)) as (q & E & Em & J & K1 & K2).
    { destruct Hc as [C1 C2]. split; [exact C1|]. intros i Hi. apply C2. rewrite app_length. lia. }
    cbn [saped_push_all]. rewrite E. cbn [bind].
    destruct (IH (h ++ [m]) q J S (Forall_inv_tail Hz) Hc) as (p1 & -> & M1 & M2 & M3 & M4).
    exists p1. split; [reflexivity|]. split; [rewrite M1, Em, <- app_assoc; reflexivity|]. split; [exact M2|]. split; congruence.
Qed.

Lemma signal_from_ts b : forall h, map (@mg_ts F) (signal_from h b) = map (@st_ts _) b.
Proof. induction b as [|m t IH]; intros h; [reflexivity|]. cbn [signal_from map]. rewrite IH. reflexivity. Qed.
Lemma signal_from_app a b : forall h, signal_from h (a ++ b) = signal_from h a ++ signal_from (h ++ a) b.
Proof.
  induction a as [|m t IH]; intros h; [cbn; rewrite app_nil_r; reflexivity|]. cbn [app signal_from]. rewrite IH, <- app_assoc. reflexivity.
Qed.
Lemma signal_from_length b h : List.length (signal_from h b) = List.length b.
Proof. rewrite <- (map_length (@mg_ts F)), signal_from_ts, map_length. reflexivity. Qed.

(** * Detection *)
Lemma detect_app gs1 : forall poss before gs2,
  detect poss before (gs1 ++ gs2) =
  detect poss before gs1 ++ detect (last_step poss (detect poss before gs1)) (rev gs1 ++ before) gs2.
Proof.
  induction gs1 as [|c t IH]; intros poss before gs2; [reflexivity|].
  cbn [app detect rev]. rewrite <- app_assoc. cbn [app]. destruct before as [|pr bt]; [apply IH|].
  destruct (_ && _); [|apply IH]. rewrite IH, last_step_cons. reflexivity.
Qed.

Lemma step_window_trim rts before d y : In y before -> (700 < rts - mg_ts y)%Z ->
  step_window rts (before ++ d) = step_window rts (before : list (magnitude F)).
Proof.
  induction before as [|x t IH]; intros Hy L; [destruct Hy|]. cbn [app step_window].
  destruct (Z.leb_spec (rts - mg_ts x) 700) as [C|C]; [|reflexivity].
  destruct Hy as [->|Hy]; [lia|]. rewrite IH by assumption. reflexivity.
Qed.

(** trimming the past does not matter once a value older than 700 ms remains *)
Lemma detect_trim gs : forall poss before d, before <> [] ->
  (d = [] \/ exists y, In y before /\ Forall (fun c => (700 < mg_ts c - mg_ts y)%Z) gs) ->
  detect poss (before ++ d) gs = detect poss before gs.
Proof.
  induction gs as [|c t IH]; intros poss before d Hne H; [reflexivity|].
  destruct H as [->|(y & Hy & Ht)]; [rewrite app_nil_r; reflexivity|].
  cbn [detect]. destruct before as [|pr bt]; [congruence|]. cbn [app].
  assert (EL : step_length c (pr :: bt ++ d) = step_length c (pr :: bt)).
  { unfold step_length. change (pr :: bt ++ d) with ((pr :: bt) ++ d). rewrite (@step_window_trim (mg_ts c) (pr :: bt) d y Hy (Forall_inv Ht)). reflexivity. }
  rewrite EL. change (c :: pr :: bt ++ d) with ((c :: pr :: bt) ++ d).
  rewrite !IH; try reflexivity; try discriminate; right; exists y; (split; [right; exact Hy|exact (Forall_inv_tail Ht)]).
Qed.

Lemma det_detect tb gs : (f0 <! tb) = true -> forall poss before, det tb poss before gs = detect poss before gs.
Proof.
  intros Htb. induction gs as [|c t IH]; intros poss before; [reflexivity|]. cbn [det detect].
  destruct before as [|pr bt]; [apply IH|]. unfold cross. rewrite Htb, andb_true_r.
  replace (300 <? mg_ts c - poss)%Z with (poss + 300 <? mg_ts c)%Z by (destruct (Z.ltb_spec (poss + 300) (mg_ts c)), (Z.ltb_spec 300 (mg_ts c - poss)); lia || reflexivity).
  unfold min_threshold. destruct (_ && _); rewrite IH; reflexivity.
Qed.

Lemma tb_positive {NO : NumOrd F} times : (f0 <! (f1 *! fofZ 300 : F)) = true -> (f0 <! (time_between times : F)) = true.
Proof.
  intros H. unfold time_between, fmax. match goal with |- (f0 <! (if ?a <! ?b then _ else _)) = true => destruct (a <! b) eqn:E end; [|exact H]. eapply flt_trans; [exact H|exact E].
Qed.

(** * Refinement *)
(** after the samples [h]: either at most three of them and nothing examined,
    or a suffix of the signal long enough to go on *)
Record refines (h : list sample) (poss : Z) p : Prop := {
  rf_acc : acc_inv h p;
  rf_poss : pd_possible p = poss;
  rf_few : List.length h <= 3 -> pd_mags p = signal h;
  rf_many : 3 < List.length h -> exists d, signal h = d ++ pd_mags p /\ 3 <= List.length (pd_mags p) /\
      (d = [] \/ exists y x, In y (pd_mags p) /\ back (pd_mags p) = Some x /\ (700 < mg_ts x - mg_ts y)%Z) }.

Lemma suffix_trim l x a b d G : steady 700 (map (@mg_ts F) G) -> G = d ++ l ++ [x] -> l = a ++ b ->
  3 <= List.length (l ++ [x]) ->
  (d = [] \/ exists y (z : magnitude F), In y (l ++ [x]) /\ (mg_ts z <= mg_ts x)%Z /\ (700 < mg_ts z - mg_ts y)%Z) ->
  Forall (fun y => (1400 < mg_ts x - mg_ts y)%Z) a ->
  match b with [] => True | y :: _ => (mg_ts x - mg_ts y <= 1400)%Z end ->
  3 <= List.length (b ++ [x]) /\
  (d ++ a = [] \/ exists y, In y (b ++ [x]) /\ (700 < mg_ts x - mg_ts y)%Z).
Proof.
  intros St EG El Hl Hd Ha Hb. subst l. split.
  - destruct b as [|y [|z b]]; [..|cbn; rewrite app_length; cbn; lia].
    + rewrite app_nil_r in *. destruct a as [|u a] using rev_ind; [cbn in Hl; lia|]. clear IHa.
      apply Forall_app in Ha as [_ Ha]. pose proof (Forall_inv Ha) as H1. cbn in H1.
      rewrite EG, !map_app in St. cbn [map] in St. rewrite <- !app_assoc in St. rewrite app_assoc in St.
      pose proof (@steady_adjacent _ _ _ _ _ St). lia.
    + destruct a as [|u a] using rev_ind; [cbn in Hl; lia|]. clear IHa.
      apply Forall_app in Ha as [_ Ha]. pose proof (Forall_inv Ha) as H1. cbn in H1.
      rewrite EG, !map_app in St. cbn [map] in St. rewrite <- !app_assoc in St. cbn [app] in St. rewrite app_assoc in St.
      pose proof (@steady_adjacent _ _ _ _ _ St) as H2. change (mg_ts u :: mg_ts y :: [mg_ts x]) with ([mg_ts u] ++ mg_ts y :: [mg_ts x]) in St.
      rewrite app_assoc in St. pose proof (@steady_adjacent _ _ _ _ _ St). lia.
  - destruct a as [|u a] using rev_ind.
    + destruct Hd as [->|(y & z & H1 & H2 & H3)]; [left; reflexivity|right]. exists y. cbn in H1. split; [exact H1|lia].
    + clear IHa. right. apply Forall_app in Ha as [_ Ha]. pose proof (Forall_inv Ha) as H1. cbn in H1.
      rewrite EG, !map_app in St. rewrite <- !app_assoc in St. cbn [map app] in St. rewrite app_assoc in St.
      destruct b as [|y b]; cbn [map app] in St; pose proof (@steady_adjacent _ _ _ _ _ St).
      * exists x. split; [left; reflexivity|lia].
      * exists y. split; [left; reflexivity|lia].
Qed.

Lemma sorted_back A (ts : A -> Z) l x y : sorted_ts ts (l ++ [x]) -> In y (l ++ [x]) -> (ts y <= ts x)%Z.
Proof.
  intros S Hy. destruct (sorted_last _ _ S) as [_ L]. apply in_app_or in Hy as [Hy|[->|[]]]; [|lia].
  unfold latest in L. rewrite Forall_forall in L. exact (L y Hy).
Qed.
Lemma sorted_split A (ts : A -> Z) l1 l2 x y : sorted_ts ts (l1 ++ l2) -> In x l1 -> In y l2 -> (ts x <= ts y)%Z.
Proof.
  induction l1 as [|u t IH]; intros S Hx Hy; [destruct Hx|]. cbn in S. apply StronglySorted_inv in S as [S1 S2].
  destruct Hx as [->|Hx]; [|auto]. rewrite Forall_forall in S2. apply S2. apply in_or_app. auto.
Qed.

Lemma batch_refines {NO : NumOrd F} h b p poss : refines h poss p -> regular (h ++ b) -> @sane F NF (List.length (h ++ b)) ->
  let ss := if Nat.leb (List.length h + List.length b) 3 then [] else detect poss (rev (signal h)) (signal_from h b) in
  exists p2, saped_batch p b = Ok (p2, ss) /\ refines (h ++ b) (last_step poss ss) p2.
Proof.
  intros [R1 R2 R3 R4] [St Hz] Hs. cbv zeta.
  assert (SS : sorted_ts (@st_ts _) (h ++ b)) by (eapply steady_sorted; exact St).
  assert (SG : steady 700 (map (@mg_ts F) (signal (h ++ b)))) by (unfold signal; rewrite signal_from_ts; exact St).
  assert (EG : signal (h ++ b) = signal h ++ signal_from h b) by (unfold signal; rewrite signal_from_app; reflexivity).
  apply Forall_app in Hz as [_ Hz].
  unfold saped_batch, saped_update.
  match goal with |- context [saped_push_all ?q b] => destruct (@push_all_signal b h q) as (p1 & -> & M1 & M2 & M3 & M4) end;
    [exact R1|exact SS|exact Hz|exact Hs|].
  cbn [bind]. cbn [pd_mags pd_size pd_possible] in *.
  assert (Htb := @tb_positive NO (pd_times p1) (proj1 Hs)).
  destruct (Nat.leb_spec (List.length h + List.length b) 3) as [L|L].
  { (* nothing examined yet *)
    assert (Em : pd_mags p1 = signal (h ++ b)) by (rewrite M1, R3, EG by lia; reflexivity).
    rewrite steps_few by (rewrite Em; unfold signal; rewrite signal_from_length, app_length; lia).
    exists p1. split; [reflexivity|]. constructor; auto.
    - cbn. congruence.
    - intros C. rewrite app_length in C. lia. }
  destruct (Nat.le_gt_cases (List.length h) 3) as [Lh|Lh].
  - (* first examination *)
    specialize (R3 Lh).
    assert (Em : pd_mags p1 = signal (h ++ b)) by (rewrite M1, R3, EG; reflexivity).
    assert (L1 : 3 < List.length (pd_mags p1)) by (rewrite Em; unfold signal; rewrite signal_from_length, app_length; lia).
    destruct (@steps_spec p1 ltac:(lia) L1) as (p2 & E2 & A2 & S2 & P2 & l & x & a & b' & X1 & X2 & X3 & X4 & X5).
    cbv zeta in E2, P2. rewrite det_detect in E2, P2 by exact Htb. rewrite M4, R2 in E2, P2.
    assert (ED : detect poss (rev (firstn (pd_size p1) (pd_mags p1))) (skipn (pd_size p1) (pd_mags p1)) =
                 detect poss (rev (signal h)) (signal_from h b)).
    { rewrite M3, M1, R3. unfold signal. rewrite signal_from_length. destruct h as [|m0 h'].
      - destruct b as [|m1 b1]; [cbn in L; lia|]. reflexivity.
      - replace (Nat.max (List.length (m0 :: h')) 1) with (List.length (signal_from [] (m0 :: h'))) by (rewrite signal_from_length; cbn; lia).
        rewrite firstn_app, skipn_app, Nat.sub_diag, firstn_all, skipn_all. cbn [firstn skipn app]. rewrite app_nil_r. reflexivity. }
    rewrite ED in E2, P2. exists p2. split; [exact E2|]. constructor.
    + destruct M2 as (d & D1 & D2). exists d. rewrite A2. auto.
    + exact P2.
    + intros C. rewrite app_length in C. lia.
    + intros _. rewrite Em in X1.
      destruct (@suffix_trim l x a b' [] (signal (h ++ b)) SG X1 X3) as [Q1 Q2].
      { rewrite <- X1, <- Em. lia. } { left. reflexivity. } { exact X4. } { exact X5. }
      exists a. rewrite X2. split; [rewrite X1, X3, <- app_assoc; reflexivity|]. split; [exact Q1|].
      destruct Q2 as [Q2|(y & Q2 & Q3)]; [left; exact Q2|right]. exists y, x. rewrite back_app. auto.
  - (* running *)
    destruct (R4 Lh) as (d & D1 & D2 & D3).
    assert (SGs : sorted_ts (@mg_ts F) (signal (h ++ b))) by (eapply steady_sorted; exact SG).
    assert (EG' : signal (h ++ b) = d ++ pd_mags p1) by (rewrite EG, D1, M1, <- app_assoc; reflexivity).
    assert (Hne : pd_mags p <> []) by (destruct (pd_mags p); [cbn in D2; lia|discriminate]).
    assert (ED : detect poss (rev (signal h)) (signal_from h b) = detect poss (rev (pd_mags p)) (signal_from h b)).
    { rewrite D1, rev_app_distr. apply detect_trim.
      - intros C. apply (f_equal (@List.length _)) in C. rewrite rev_length in C. cbn in C. lia.
      - destruct D3 as [->|(y & x & Y1 & Y2 & Y3)]; [left; reflexivity|right]. exists y. split; [apply in_rev in Y1; exact Y1|].
        rewrite Forall_forall. intros c Hc. rewrite EG in SGs.
        assert (Hx : In x (signal h)). { rewrite D1. apply in_or_app. right. destruct (rev_mags Hne) as (l0 & x0 & El). rewrite El, back_app in Y2. injection Y2 as ->. rewrite El. apply in_or_app. right. left. reflexivity. }
        pose proof (@sorted_split _ _ _ _ _ _ SGs Hx Hc). lia. }
    rewrite ED. destruct (Nat.le_gt_cases (List.length (pd_mags p1)) 3) as [L1|L1].
    { assert (Eb : b = []). { destruct b as [|m1 b1]; [reflexivity|]. rewrite M1, app_length, signal_from_length in L1. cbn in L1. lia. }
      subst b. rewrite steps_few by exact L1. cbn [signal_from detect last_step map List.last]. exists p1. split; [reflexivity|].
      cbn [signal_from] in M1. rewrite app_nil_r in *. constructor; auto.
      - unfold last_step. cbn. congruence.
      - intros C. lia.
      - intros _. exists d. rewrite M1. auto. }
    destruct (@steps_spec p1 ltac:(lia) L1) as (p2 & E2 & A2 & S2 & P2 & l & x & a & b' & X1 & X2 & X3 & X4 & X5).
    cbv zeta in E2, P2. rewrite det_detect in E2, P2 by exact Htb. rewrite M4, R2 in E2, P2.
    replace (pd_size p1) with (List.length (pd_mags p)) in E2, P2 by (rewrite M3; lia).
    rewrite M1, firstn_app, skipn_app, Nat.sub_diag, firstn_all, skipn_all in E2, P2. cbn [firstn skipn app] in E2, P2.
    rewrite app_nil_r in E2, P2. exists p2. split; [exact E2|]. constructor.
    + destruct M2 as (d' & D1' & D2'). exists d'. rewrite A2. auto.
    + exact P2.
    + intros C. rewrite app_length in C. lia.
    + intros _. rewrite X1 in EG'.
      destruct (@suffix_trim l x a b' d (signal (h ++ b)) SG EG' X3) as [Q1 Q2].
      { rewrite <- X1. lia. }
      { destruct D3 as [->|(y & z & Y1 & Y2 & Y3)]; [left; reflexivity|right]. exists y, z. rewrite <- X1.
        assert (Hz' : In z (l ++ [x])). { rewrite <- X1, M1. apply in_or_app. left. destruct (rev_mags Hne) as (l0 & x0 & El). rewrite El, back_app in Y2. injection Y2 as ->. rewrite El. apply in_or_app. right. left. reflexivity. }
        split; [rewrite M1; apply in_or_app; left; exact Y1|]. split; [|exact Y3].
        rewrite EG' in SGs. apply sorted_suffix in SGs. exact (@sorted_back _ _ _ _ _ SGs Hz'). }
      { exact X4. } { exact X5. }
      exists (d ++ a). rewrite X2. split; [rewrite EG', X3, <- !app_assoc; reflexivity|]. split; [exact Q1|].
      destruct Q2 as [Q2|(y & Q2 & Q3)]; [left; exact Q2|right]. exists y, x. rewrite back_app. auto.
Qed.

(** after the first examination everything is examined *)
Lemma run_many {NO : NumOrd F} bs : forall h p poss, refines h poss p -> 3 < List.length h -> regular (h ++ List.concat bs) ->
  @sane F NF (List.length (h ++ List.concat bs)) ->
  exists p2 r, saped_run p bs = Ok (p2, r) /\ List.concat r = detect poss (rev (signal h)) (signal_from h (List.concat bs)).
Proof.
  induction bs as [|b t IH]; intros h p poss R L Hr Hs.
  - exists p, []. cbn. auto.
  - cbn [List.concat] in *. rewrite app_assoc in Hr, Hs.
    assert (Hr' : regular (h ++ b)). { destruct Hr as [H1 H2]. rewrite map_app in H1. apply steady_app in H1. apply Forall_app in H2. split; tauto. }
    assert (Hs' : @sane F NF (List.length (h ++ b))). { destruct Hs as [H1 H2]. split; [exact H1|]. intros i Hi. apply H2. rewrite app_length. lia. }
    destruct (@batch_refines NO h b p poss R Hr' Hs') as (p1 & E & R'). cbv zeta in E, R'.
    destruct (Nat.leb_spec (List.length h + List.length b) 3) as [C|_]; [lia|].
    cbn [saped_run]. rewrite E. cbn [bind].
    destruct (IH (h ++ b) p1 _ R') as (p2 & r & E2 & EC); [rewrite app_length; lia|exact Hr|exact Hs|].
    rewrite E2. cbn [bind]. eexists p2, _. split; [reflexivity|]. cbn [List.concat]. rewrite EC.
    rewrite signal_from_app, detect_app. unfold signal. rewrite signal_from_app, rev_app_distr. reflexivity.
Qed.

Lemma warm_up_le bs : forall n, n <= 3 -> warm_up n bs <= 3 /\ n <= warm_up n bs.
Proof.
  induction bs as [|b t IH]; intros n H; cbn [warm_up]; [lia|].
  destruct (Nat.leb_spec (n + List.length b) 3); [|lia]. destruct (IH (n + List.length b)); lia.
Qed.

Lemma run_few {NO : NumOrd F} bs : forall h p, refines h (-1) p -> List.length h <= 3 -> regular (h ++ List.concat bs) ->
  @sane F NF (List.length (h ++ List.concat bs)) ->
  exists p2 r, saped_run p bs = Ok (p2, r) /\
    List.concat r = detect_after (warm_up (List.length h) bs) (signal (h ++ List.concat bs)).
Proof.
  induction bs as [|b t IH]; intros h p R L Hr Hs.
  - exists p, []. cbn [saped_run List.concat warm_up]. split; [reflexivity|]. rewrite app_nil_r. unfold detect_after.
    rewrite skipn_all2 by (unfold signal; rewrite signal_from_length; lia). reflexivity.
  - cbn [List.concat warm_up] in *. rewrite app_assoc in Hr, Hs |- *.
    assert (Hr' : regular (h ++ b)). { destruct Hr as [H1 H2]. rewrite map_app in H1. apply steady_app in H1. apply Forall_app in H2. split; tauto. }
    assert (Hs' : @sane F NF (List.length (h ++ b))). { destruct Hs as [H1 H2]. split; [exact H1|]. intros i Hi. apply H2. rewrite app_length. lia. }
    destruct (@batch_refines NO h b p (-1)%Z R Hr' Hs') as (p1 & E & R'). cbv zeta in E, R'.
    cbn [saped_run]. rewrite E. cbn [bind].
    destruct (Nat.leb_spec (List.length h + List.length b) 3) as [C|C].
    + destruct (IH (h ++ b) p1 R') as (p2 & r & E2 & EC); [rewrite app_length; lia|exact Hr|exact Hs|].
      rewrite E2. cbn [bind]. eexists p2, _. split; [reflexivity|]. cbn [List.concat app]. rewrite EC, app_length. reflexivity.
    + destruct (@run_many NO t (h ++ b) p1 _ R') as (p2 & r & E2 & EC); [rewrite app_length; lia|exact Hr|exact Hs|].
      rewrite E2. cbn [bind]. eexists p2, _. split; [reflexivity|]. cbn [List.concat]. rewrite EC.
      assert (EG : signal ((h ++ b) ++ List.concat t) = signal h ++ signal_from h (b ++ List.concat t))
        by (unfold signal; rewrite <- app_assoc, signal_from_app; reflexivity).
      assert (Lh : List.length (signal h) = List.length h) by apply signal_from_length.
      rewrite EG. unfold detect_after. rewrite <- Lh, firstn_app, skipn_app, Nat.sub_diag, firstn_all, skipn_all. cbn [firstn skipn app].
      rewrite app_nil_r, signal_from_app, detect_app. unfold signal. rewrite signal_from_app, rev_app_distr. reflexivity.
Qed.

Lemma refines0 : refines [] (-1) (ped0 : pedometer F).
Proof. constructor; try reflexivity; [exists []; split; [reflexivity|constructor]|cbn; lia]. Qed.

Lemma run_refines {NO : NumOrd F} bs : regular (List.concat bs) -> @sane F NF (List.length (List.concat bs)) ->
  exists p r, saped_run ped0 bs = Ok (p, r) /\ List.concat r = detect_after (warm_up 0 bs) (signal (List.concat bs)).
Proof. intros H1 H2. exact (@run_few NO bs [] ped0 refines0 ltac:(cbn; lia) H1 H2). Qed.

(** * Calling calculateSteps twice *)
Lemma skipn_skipn' A (l : list A) : forall i j, skipn i (skipn j l) = skipn (j + i) l.
Proof. induction l as [|x t IH]; intros i j; [destruct j; cbn; rewrite !skipn_nil; reflexivity|]. destruct j; [reflexivity|]. cbn. apply IH. Qed.
Lemma det_again tb tb' gs : (f0 <! tb) = true -> forall poss before poss', (last_step poss (det tb poss before gs) <= poss')%Z ->
  (poss <= poss')%Z -> det tb' poss' before gs = [].
Proof.
  intros Htb. induction gs as [|c t IH]; intros poss before poss' H H0; [reflexivity|]. cbn [det] in *.
  destruct before as [|pr bt]; [eapply IH; eassumption|].
  destruct (cross pr c poss tb) eqn:C.
  - rewrite last_step_cons in H. cbn [sp_ts] in H.
    assert (Hm : (mg_ts c <= last_step (mg_ts c) (det tb (mg_ts c) (c :: pr :: bt) t))%Z).
    { clear. generalize (c :: pr :: bt) (mg_ts c). induction t as [|d t IH]; intros before po; cbn [det]; [unfold last_step; cbn; lia|].
      destruct before as [|p1 b1]; [apply IH|]. destruct (cross p1 d po tb) eqn:C; [|apply IH]. rewrite last_step_cons. cbn [sp_ts].
      unfold cross in C. rewrite !andb_true_iff in C. destruct C as [[_ C] _]. specialize (IH (d :: p1 :: b1) (mg_ts d)). lia. }
    assert (C' : cross pr c poss' tb' = false). { unfold cross. destruct (Z.ltb_spec 300 (mg_ts c - poss')); [lia|]. rewrite andb_false_r. reflexivity. }
    rewrite C'. eapply IH; [exact H|lia].
  - assert (C' : cross pr c poss' tb' = false).
    { unfold cross in *. rewrite Htb, andb_true_r in C. destruct (mg_val pr <! min_threshold); [|reflexivity].
      destruct (min_threshold <! mg_val c); [|reflexivity]. cbn [andb] in *. destruct (Z.ltb_spec 300 (mg_ts c - poss')); [lia|reflexivity]. }
    rewrite C'. eapply IH; eassumption.
Qed.
Lemma det_head tb gs : forall poss before d, before <> [] -> det tb poss (before ++ d) gs = [] -> det tb poss before gs = [].
Proof.
  induction gs as [|c t IH]; intros poss before d Hb H; [reflexivity|]. destruct before as [|pr bt]; [congruence|].
  cbn [det app] in *. destruct (cross pr c poss tb); [discriminate|]. apply (IH poss (c :: pr :: bt) d); [discriminate|exact H].
Qed.
Lemma det_tail tb gs1 : forall poss before gs2, before <> [] -> det tb poss before (gs1 ++ gs2) = [] -> det tb poss (rev gs1 ++ before) gs2 = [].
Proof.
  induction gs1 as [|c t IH]; intros poss before gs2 Hb H; [exact H|]. cbn [app det rev] in *. destruct before as [|pr bt]; [congruence|].
  destruct (cross pr c poss tb); [discriminate|]. rewrite <- app_assoc. apply IH; [discriminate|exact H].
Qed.
Lemma steps_twice {NO : NumOrd F} p p1 ss : (f0 <! (f1 *! fofZ 300 : F)) = true -> (pd_mags p = [] \/ 1 <= pd_size p) ->
  ped_steps p = Ok (p1, ss) -> exists p2, ped_steps p1 = Ok (p2, []).
Proof.
  intros H3 Hp E. destruct (Nat.le_gt_cases (List.length (pd_mags p)) 3) as [L|L].
  { rewrite steps_few in E by exact L. injection E as <- <-. exists p. apply steps_few. exact L. }
  destruct Hp as [Hp|Hp]; [rewrite Hp in L; cbn in L; lia|].
  destruct (@steps_spec p Hp L) as (p' & E' & _ & S2 & P2 & l & x & a & b & X1 & X2 & X3 & _ & _). cbv zeta in *.
  rewrite E in E'. injection E' as <- Ess. rewrite <- Ess in P2.
  destruct (Nat.le_gt_cases (List.length (pd_mags p1)) 3) as [L1|L1]; [exists p1; apply steps_few; exact L1|].
  destruct (@steps_spec p1 ltac:(lia) L1) as (p2 & E2 & _). cbv zeta in E2. exists p2. rewrite E2. f_equal. f_equal.
  rewrite S2 in *. set (n := pd_size p) in *. set (M2 := pd_mags p1) in *. set (M := pd_mags p) in *.
  assert (EM : M = a ++ M2) by (rewrite X1, X2, X3, app_assoc; reflexivity).
  destruct (Nat.le_gt_cases (List.length M2) n) as [Ln|Ln]; [rewrite (skipn_all2 M2) by lia; reflexivity|].
  assert (ER : exists mid, skipn n M = mid ++ skipn n M2 /\ firstn n M ++ mid = a ++ firstn n M2).
  { exists (firstn (List.length a) (skipn n M)).
    assert (E1 : skipn (List.length a) (skipn n M) = skipn n M2).
    { rewrite skipn_skipn', EM. rewrite Nat.add_comm, <- skipn_skipn'. rewrite skipn_app, skipn_all, Nat.sub_diag. reflexivity. }
    assert (E2' : skipn n M = firstn (List.length a) (skipn n M) ++ skipn n M2) by (rewrite <- E1, firstn_skipn; reflexivity).
    split; [exact E2'|]. apply (app_inv_tail (skipn n M2)). rewrite <- app_assoc, <- E2', firstn_skipn, EM, <- app_assoc, firstn_skipn. reflexivity. }
  destruct ER as (mid & R1 & R2).
  apply (@det_head _ _ _ _ (rev a)).
  { intros C. apply (f_equal (@List.length _)) in C. rewrite rev_length, firstn_length in C. cbn in C. lia. }
  rewrite <- rev_app_distr, <- R2, rev_app_distr. apply det_tail.
  { intros C. apply (f_equal (@List.length _)) in C. rewrite rev_length, firstn_length in C. cbn in C. lia. }
  rewrite <- R1. eapply det_again.
  - apply (@tb_positive NO (pd_times p) H3).
  - rewrite <- Ess, P2. apply Z.le_refl.
  - rewrite P2, Ess. clear. generalize (rev (firstn n M)) (pd_possible p). induction (skipn n M) as [|d t IH]; intros before po; cbn [det]; [unfold last_step; cbn; lia|].
    destruct before as [|p1 b1]; [apply IH|]. destruct (cross p1 d po _) eqn:C; [|apply IH]. rewrite last_step_cons. cbn [sp_ts].
    unfold cross in C. rewrite !andb_true_iff in C. destruct C as [[_ C] _]. specialize (IH (d :: p1 :: b1) (mg_ts d)). lia.
Qed.
End P.
