(** C96: integer overflow. *)
From Coq Require Import Lia.
From Verif Require Import Lib NumFloat SortInst Client Overflow Spec_Client Spec_Overflow Pf_Client Pf_Overflow Ex P_Client P_Fresh.
Local Open Scope string_scope.
Local Open Scope list_scope.
#[local] Existing Instance nf.
#[local] Existing Instance isorter.

(** if all times given to the client, and those left in its uninitialised members,
    lie in a span of less than 2^63 ms around zero, then no integer operation of
    any run overflows: neither on time stamps, nor in the int that sums up step
    durations, nor in the int that counts steps *)
Theorem C96_no_overflow {F : Type} {NF : Num F} {SO : Sorter} (e : env F) (k : config F) (s : settings F) (g : garbage F)
    (bs : list (list (measurement F))) (lo hi : Z) :
  (lo <= -1)%Z -> (0 <= hi)%Z -> (hi - lo < 2 ^ 63)%Z ->
  in64 (lo - bc_keep (cf_buf k)) -> in64 (hi - bc_keep (cf_buf k)) ->
  input_times lo hi bs -> initial_times lo hi g -> (Z.of_nat (List.length (List.concat bs)) < 2 ^ 31)%Z ->
  Forall fits (history_ints e k (client0 g s) bs).
Proof.
  intros H1 H2 H3 H4 H5 HI HG HN. apply (@history_fits F NF SO lo hi H1 H2 H3 e k bs) with (n := 0%Z); [|exact HI|exact HN|].
  - unfold T, in64 in *. lia.
  - apply client0_ok; assumption.
Qed.
Print Assumptions C96_no_overflow.

(** each processed measurement contributes the time since the last signal *)
Theorem C96_listed {F : Type} {NF : Num F} {SO : Sorter} (e : env F) (k : config F) (c c' : client F) (m : measurement F) o :
  nav_step e k c m = Ok (c', o) -> In (I64 (st_ts m - pp_signal (c_pre c'))) (step_ints e k c m).
Proof.
  intros E. destruct (nav_step_inv _ _ _ _ E) as (pre & sf & mi & pre1 & rs & det & lev & lid & outd & outp & oc & ns
    & H1 & H2 & H3 & H4 & H5 & H6 & H7 & H8 & ->). clear E. cbn [c_pre].
  destruct (extract_radio_keeps _ _ _ _ _ H3) as (_ & -> & _).
  assert (EC : pp_cur pre = st_ts m).
  { unfold update_measurements in H1. destruct (st_data m); [inv_bind H1; destruct a; apply Pf_Radio.Ok_inj in Hb; subst pre; reflexivity|..];
      apply Pf_Radio.Ok_inj in H1; subst pre; reflexivity. }
  unfold step_ints. rewrite H1, H2, H3, H4, H6, EC. apply in_or_app; right. apply in_or_app; right. apply in_or_app; right. apply in_or_app; left.
  left. reflexivity.
Qed.
Print Assumptions C96_listed.

(** the member holding the time of the last signal is not initialised: whatever
    the first measurement, a content far enough from its time overflows *)
Theorem C96_uninitialised {F : Type} {NF : Num F} {SO : Sorter} (e : env F) (k : config F) (g : garbage F) (s : settings F) (d : sensor F) ts c' o :
  nav_step e k (client0 g s) (mkSt (MSensor d) ts) = Ok (c', o) -> ~ in64 (ts - g_signal g) ->
  ~ Forall fits (history_ints e k (client0 g s) [[mkSt (MSensor d) ts]]).
Proof.
  intros E H HF. cbn [history_ints navigate_ints loop_ints st_ts] in HF. rewrite Z.ltb_irrefl in HF. apply Forall_app in HF. destruct HF as [HF _].
  apply Forall_app in HF. destruct HF as [HF _]. apply C96_listed in E as EL.
  change (clear_states (client0 g s)) with (client0 g s) in HF. rewrite Forall_forall in HF. specialize (HF _ EL). cbn [fits st_ts] in HF.
  destruct (nav_step_inv _ _ _ _ E) as (pre & sf & mi & pre1 & rs & det & lev & lid & outd & outp & oc & ns & H1 & H2 & H3 & _ & _ & _ & _ & _ & ->).
  cbn [c_pre] in HF. destruct (extract_radio_keeps _ _ _ _ _ H3) as (_ & E3 & _). rewrite E3 in HF. cbn in H1. apply Pf_Radio.Ok_inj in H1. subst pre. cbn in HF.
  exact (H HF).
Qed.
Print Assumptions C96_uninitialised.

Definition ex_stroll2 : list (list (measurement SF)) := [[ex_mr "a" (-50) 1000; ex_mr "a" (-50) 2000; ex_msn GYROSCOPE 0 0 1 2500]].
(** a short walk meets the hypotheses of C96_no_overflow; these are its operations, and [C96_listed] speaks of some of them *)
Example C96_example : exists k, ex_config (ex_zones false) ex_gls = Ok k /\
  in64 (-1 - bc_keep (cf_buf k)) /\ in64 (2 ^ 62 - bc_keep (cf_buf k)) /\ input_times (-1) (2 ^ 62) ex_stroll2 /\ initial_times (-1) (2 ^ 62) (ex_garbage 0 : garbage SF) /\
  history_ints ex_env k (client0 (ex_garbage 0) (ex_zones false)) ex_stroll2 =
    map I64 [0; 0; 0; 0; 1; 0; 1000; 0; 0; 0; 0; 0; 0; 1; 1000; 2000; 0; 0; 0; 0; 2501; 0; 2500; 500; 500; 500]%Z.
Proof.
  destruct (ex_config (ex_zones false) ex_gls) as [k| | |] eqn:E; [|vm_compute in E; discriminate..]. exists k. split; [reflexivity|].
  vm_compute in E. injection E as E. subst k. split; [vm_compute; split; discriminate|]. split; [vm_compute; split; discriminate|].
  split; [unfold input_times; cbn; repeat (apply Forall_cons; [cbn; lia|]); apply Forall_nil|]. split; [vm_compute; intuition discriminate|]. vm_compute. reflexivity.
Qed.

(** with the settings of the example and one of the values a long long can have in that member, a single gyroscope reading overflows *)
Theorem C96_uninitialised_refuted : exists (k : config SF) gs g m c os, built (ex_zones false) gs k /\ in64 (g_signal g) /\
  (0 <= st_ts m <= 1000)%Z /\ navigate ex_env k (client0 g (ex_zones false)) [m] = Ok (c, os) /\
  ~ Forall fits (history_ints ex_env k (client0 g (ex_zones false)) [[m]]).
Proof.
  destruct (ex_config (ex_zones false) ex_gls) as [k| | |] eqn:E; [|vm_compute in E; discriminate..].
  assert (B := ex_built _ _ _ E). vm_compute in E. injection E as E.
  set (g := ex_garbage (- 2 ^ 63)). set (m := ex_msn GYROSCOPE 0 0 1 1000).
  destruct (navigate ex_env k (client0 g (ex_zones false)) [m]) as [[c os]| | |] eqn:R; [|rewrite <- E in R; vm_compute in R; discriminate..].
  exists k, ex_gls, g, m, c, os. split; [exact B|]. split; [unfold g, in64; cbn [g_signal ex_garbage]; lia|]. split; [cbn; lia|]. split; [exact R|].
  destruct (nav_step ex_env k (client0 g (ex_zones false)) m) as [[c' o]| | |] eqn:S; [|rewrite <- E in S; vm_compute in S; discriminate..].
  eapply C96_uninitialised; [exact S|]. unfold g, in64. cbn [g_signal ex_garbage]. lia.
Qed.
Print Assumptions C96_uninitialised_refuted.

(** the bound on the span is needed: two signals 2^63 ms apart overflow *)
Theorem C96_span_refuted : exists (k : config SF) gs g bs c os, built (ex_zones false) gs k /\ input_times (- 2 ^ 62) (2 ^ 62) bs /\
  initial_times (- 2 ^ 62) (2 ^ 62) g /\ navigate_all ex_env k (client0 g (ex_zones false)) bs = Ok (c, os) /\
  ~ Forall fits (history_ints ex_env k (client0 g (ex_zones false)) bs).
Proof.
  destruct (ex_config (ex_zones false) ex_gls) as [k| | |] eqn:E; [|vm_compute in E; discriminate..].
  assert (B := ex_built _ _ _ E). vm_compute in E. injection E as E.
  set (g := ex_garbage 0). set (bs := [[ex_mr "a" (-50) (- 2 ^ 62); ex_msn GYROSCOPE 0 0 1 (2 ^ 62)]]).
  destruct (navigate_all ex_env k (client0 g (ex_zones false)) bs) as [[c os]| | |] eqn:R; [|rewrite <- E in R; vm_compute in R; discriminate..].
  exists k, ex_gls, g, bs, c, os. split; [exact B|]. split; [unfold input_times; cbn; repeat (apply Forall_cons; [cbn; lia|]); apply Forall_nil|]. split; [vm_compute; intuition discriminate|]. split; [exact R|].
  intros HF. rewrite Forall_forall in HF. specialize (HF (I64 (2 ^ 63))). assert (HH : fits (I64 (2 ^ 63))); [apply HF; clear HF|unfold fits, in64 in HH; lia].
  rewrite <- E. vm_compute. tauto.
Qed.
Print Assumptions C96_span_refuted.

(** the constructor multiplies the two timeouts by 1000 and subtracts the window
    shift from the averaging time: no overflow for timeouts below 2^53 seconds
    and durations that are not negative *)
Theorem C96_config {F : Type} {NF : Num F} (s : settings F) :
  (- 2 ^ 53 <= s_nosignal s <= 2 ^ 53)%Z -> (- 2 ^ 53 <= s_noaction s <= 2 ^ 53)%Z ->
  (forall a, to_ms (s_avg s) = Ok a -> (0 <= a < 2 ^ 63)%Z) -> (forall a, to_ms (s_shift s) = Ok a -> (0 <= a < 2 ^ 63)%Z) ->
  Forall fits (config_ints s).
Proof.
  intros H1 H2 H3 H4. unfold config_ints. apply Forall_app. split.
  { apply Forall_cons; [unfold fits, in64; lia|]. apply Forall_cons; [unfold fits, in64; lia|]. apply Forall_nil. }
  destruct (to_ms (s_avg s)) as [a| | |]; try apply Forall_nil. destruct (to_ms (s_shift s)) as [b| | |]; try apply Forall_nil.
  specialize (H3 _ eq_refl). specialize (H4 _ eq_refl). apply Forall_cons; [|apply Forall_nil]. unfold fits, in64.
  destruct (Z.eqb_spec b 0), (Z.ltb_spec a b); cbn [orb]; lia.
Qed.
Print Assumptions C96_config.
Example C96_config_example : (s_nosignal (ex_zones false : settings SF) = 35)%Z /\ (s_noaction (ex_zones false : settings SF) = 20)%Z /\
  to_ms (s_avg (ex_zones false : settings SF)) = Ok 1000%Z /\ to_ms (s_shift (ex_zones false : settings SF)) = Ok 0%Z /\
  config_ints (ex_zones false : settings SF) = [I64 35000; I64 20000; I64 0].
Proof. vm_compute. repeat split. Qed.
(** a timeout of 2^54 seconds, a value a long long can have, overflows *)
Theorem C96_config_refuted : exists s : settings SF, in64 (s_noaction s) /\ in64 (s_nosignal s) /\ ~ Forall fits (config_ints s).
Proof.
  exists (with_noaction (ex_zones false) (2 ^ 54)). split; [unfold in64; cbn [s_noaction with_noaction]; lia|]. split; [vm_compute; split; discriminate|].
  intros HF. apply Forall_inv_tail, Forall_inv in HF. cbn [fits s_noaction with_noaction] in HF. unfold in64 in HF. lia.
Qed.
Print Assumptions C96_config_refuted.
