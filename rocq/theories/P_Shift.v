(** C92: the origin of time. *)
From Coq Require Import Lia.
From Verif Require Import Lib NumFloat SortInst Client Spec_Client Spec_Shift Pf_Shift Ex P_Client.
Local Open Scope string_scope.
Local Open Scope list_scope.
#[local] Existing Instance nf.
#[local] Existing Instance isorter.

(** a log whose times are all [d] later, heard by a client whose unspecified
    contents are [d] later, gives the same outputs and the same states and ends
    the same way, if every time in both is at least two seconds and, with stops
    in use, more than the stop-update time *)
Theorem C92_time_origin {F : Type} {NF : Num F} {SO : Sorter} (e : env F) (k : config F) (g : garbage F)
    (bs : list (list (measurement F))) (d lo : Z) :
  generic_sort SO -> (0 < bc_shift (cf_buf k))%Z -> (2000 <= lo)%Z -> (s_stops (cf_set k) = true -> (pc_stopupd (cf_post k) < lo)%Z) ->
  (forall t, In t (st_ts (g_sensor g) :: map (fun m => st_ts m) (List.concat bs)) -> (lo <= t)%Z /\ (lo <= t + d)%Z) ->
  observed (navigate_all e k (client0 (later_garbage d g) (cf_set k)) (map (map (later d)) bs)) =
  observed (navigate_all e k (client0 g (cf_set k)) bs).
Proof. exact (@shift_observed F NF SO e k g bs d lo). Qed.
Print Assumptions C92_time_origin.
(** there is such a sort *)
Theorem C92_generic : generic_sort isorter.
Proof. exact isorter_generic. Qed.
Print Assumptions C92_generic.

Definition ex_from (t : Z) : list (list (measurement SF)) :=
  map (map (later t)) [[ex_mr "a" (-50) 0; ex_mr "a" (-50) 2000; ex_msn ACCELEROMETER 0 0 9 2100; ex_mr "b" (-50) 4000]].
Definition ex_g (t : Z) : garbage SF := later_garbage t (ex_garbage 0).
(** a log from noon or from one o'clock meets the hypotheses, and has fixes *)
Example C92_example : exists k, ex_config (ex_zones false) ex_gls = Ok k /\ (0 < bc_shift (cf_buf k))%Z /\
  (s_stops (cf_set k) = true -> (pc_stopupd (cf_post k) < 43200000)%Z) /\
  (forall t, In t (st_ts (g_sensor (ex_g 43200000)) :: map (fun m => st_ts m) (List.concat (ex_from 43200000))) -> (43200000 <= t)%Z /\ (43200000 <= t + 3600000)%Z) /\
  exists os ns, observed (navigate_all ex_env k (client0 (ex_g 43200000) (cf_set k)) (ex_from 43200000)) = Ok (os, ns) /\
    map (map (@o_status SF)) os = [[NO_LEVEL; OK; OK; OK]] /\ List.length ns = 4%nat.
Proof.
  destruct (ex_config (ex_zones false) ex_gls) as [k| | |] eqn:E; [|vm_compute in E; discriminate..]. exists k. split; [reflexivity|].
  vm_compute in E. injection E as E.
  split; [rewrite <- E; vm_compute; reflexivity|]. split; [rewrite <- E; vm_compute; discriminate|]. split; [cbn; intuition lia|].
  destruct (observed (navigate_all ex_env k (client0 (ex_g 43200000) (cf_set k)) (ex_from 43200000))) as [[os ns]| | |] eqn:R;
    [|rewrite <- E in R; vm_compute in R; discriminate..].
  rewrite <- E in R. vm_compute in R. injection R as <- <-. eexists _, _. split; [reflexivity|]. split; reflexivity.
Qed.

(** a log whose clock starts at zero loses its first fix: time zero stands for "nothing heard yet" *)
Theorem C92_zero_refuted : exists (k : config SF) g bs d, built (ex_zones false) ex_gls k /\ (0 < bc_shift (cf_buf k))%Z /\ s_stops (cf_set k) = false /\ (0 <= d)%Z /\
  (forall t, In t (st_ts (g_sensor g) :: map (fun m => st_ts m) (List.concat bs)) -> (0 <= t)%Z) /\
  observed (navigate_all ex_env k (client0 (later_garbage d g) (cf_set k)) (map (map (later d)) bs)) <>
  observed (navigate_all ex_env k (client0 g (cf_set k)) bs).
Proof.
  destruct (ex_config (ex_zones false) ex_gls) as [k| | |] eqn:E; [|vm_compute in E; discriminate..].
  assert (B := ex_built _ _ _ E). vm_compute in E. injection E as E.
  exists k, (ex_g 0), (ex_from 0), 100000%Z. split; [exact B|]. split; [rewrite <- E; vm_compute; reflexivity|]. split; [rewrite <- E; reflexivity|]. split; [lia|].
  split; [cbn; intuition lia|]. intros H.
  apply (f_equal (fun r => bind r (fun x => Ok (map (map (@o_status SF)) (fst x))))) in H. rewrite <- E in H. vm_compute in H. discriminate.
Qed.
Print Assumptions C92_zero_refuted.
(** a step within the first 0.3 s of a clock that starts near zero is not counted *)
Definition ex_jump : list (measurement SF) :=
  map (fun x => ex_msn ACCELEROMETER 0 0 (fst x) (snd x)) [(0, 1); (0, 51); (100, 101); (100, 151); (100, 201); (100, 251)]%Z.
Theorem C92_early_refuted : exists (k : config SF) g bs d, built (ex_zones false) ex_gls k /\ (0 < bc_shift (cf_buf k))%Z /\ s_stops (cf_set k) = false /\ (0 <= d)%Z /\
  (forall t, In t (st_ts (g_sensor g) :: map (fun m => st_ts m) (List.concat bs)) -> (1 <= t)%Z) /\
  observed (navigate_all ex_env k (client0 (later_garbage d g) (cf_set k)) (map (map (later d)) bs)) <>
  observed (navigate_all ex_env k (client0 g (cf_set k)) bs).
Proof.
  destruct (ex_config (ex_zones false) ex_gls) as [k| | |] eqn:E; [|vm_compute in E; discriminate..].
  assert (B := ex_built _ _ _ E). vm_compute in E. injection E as E.
  exists k, (ex_g 1), [ex_jump], 100000%Z. split; [exact B|]. split; [rewrite <- E; vm_compute; reflexivity|]. split; [rewrite <- E; reflexivity|]. split; [lia|].
  split; [cbn; intuition lia|]. intros H.
  apply (f_equal (fun r => bind r (fun x => Ok (map (@ns_steps SF) (snd x))))) in H. rewrite <- E in H. vm_compute in H. discriminate.
Qed.
Print Assumptions C92_early_refuted.
