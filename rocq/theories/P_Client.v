(** C01-C13: the navigation client. *)
From Coq Require Import Reals Lra Sorted.
From Verif Require Import Lib NumOrd NumReal NumFloat SortInst Client Spec_Preproc Spec_Client
  Pf_Preproc Pf_Client Pf_ClientInv Pf_ClientThrow Pf_ClientTop Ex.
Local Open Scope string_scope.
Local Open Scope list_scope.
#[local] Existing Instance nf.
#[local] Existing Instance isorter.

(** data of the examples: two levels, zone estimator *)
Definition ex_config (s : settings SF) (gs : list (geolevel SF)) : res (config SF) :=
  c <- add_geo_levels col0 gs ;; mk_config s c.
Lemma ex_built s gs k : ex_config s gs = Ok k -> built s gs k.
Proof. unfold ex_config. intros H. destruct (add_geo_levels col0 gs) as [c| | |] eqn:E; try discriminate. exists c. auto. Qed.
Definition ex_run (s : settings SF) (gs : list (geolevel SF)) (g : garbage SF) (bs : list (list (measurement SF))) :=
  k <- ex_config s gs ;; navigate_all ex_env k (client0 g s) bs.
Definition ex_stats (r : res (client SF * list (list (noutput SF)))) : res (list (list nstatus)) :=
  '(_, os) <- r ;; Ok (map (map (@o_status SF)) os).
Lemma ex_names : NoDup (map (@gl_id SF) ex_gls) /\ ~ In "" (map (@gl_id SF) ex_gls).
Proof. split; cbn; [repeat constructor|]; cbn; intuition discriminate. Qed.
Definition ex_b1 : list (measurement SF) := [ex_mr "a" (-50) 1000; ex_mr "b" (-60) 1500; ex_mr "b" (-60) 1200; ex_mr "b" (-60) 3000].
Definition ex_b2 : list (measurement SF) := [ex_mr "a" (-60) 2000; ex_msn ACCELEROMETER 0 0 9 2100].
Definition ex_b3 : list (measurement SF) := [ex_msn ACCELEROMETER 0 0 9 210000].
Definition ex_hist := [ex_b1; ex_b2; ex_b3].
Lemma ex_sample : exists k, built (ex_zones false) ex_gls k /\ cf_set k = ex_zones false /\ wf_collector (cf_col k) /\
  ex_config (ex_zones false) ex_gls = Ok k.
Proof.
  destruct (ex_config (ex_zones false) ex_gls) as [k| | |] eqn:E; [|vm_compute in E; discriminate..].
  assert (B := ex_built _ _ _ E). exists k. split; [exact B|]. split; [apply (built_ids B)|]. split; [|reflexivity].
  exact (built_wf B (proj1 ex_names)).
Qed.
(** every statement about the example history runs the model *)
Lemma ex_history : ex_stats (ex_run (ex_zones false) ex_gls (ex_garbage 0) ex_hist) =
  Ok [[NO_LEVEL; NO_LEVEL; OK]; [OK; OK]; [OK]].
Proof. vm_compute. reflexivity. Qed.

Local Ltac ex_sorted := unfold time_sorted; cbn -[Z.le];
  repeat (apply SSorted_cons || apply SSorted_nil || apply Forall_cons || apply Forall_nil || lia).

(** ** C01 *)
Theorem C01_one_output_per_accepted {F : Type} {NF : Num F} {SO : Sorter} (e : env F) (k : config F) (c c' : client F)
    (b : list (measurement F)) (os : list (noutput F)) :
  b <> [] -> navigate e k c b = Ok (c', os) ->
  List.length os = List.length (accepted b) /\ List.length (c_states c') = List.length (accepted b).
Proof. exact (@navigate_counts F NF SO e k c b c' os). Qed.
Print Assumptions C01_one_output_per_accepted.

(** the i-th output and state are those of the i-th accepted measurement,
    processed after the first i-1 *)
Theorem C01_in_order {F : Type} {NF : Num F} {SO : Sorter} (e : env F) (k : config F) (c c' : client F)
    (b : list (measurement F)) (os : list (noutput F)) (i : nat) (m : measurement F) :
  b <> [] -> navigate e k c b = Ok (c', os) -> nth_error (accepted b) i = Some m ->
  exists ci ci' oi, process e k (clear_states c) (firstn i (accepted b)) = Ok (ci, firstn i os) /\
    nav_step e k ci m = Ok (ci', oi) /\ nth_error os i = Some oi /\
    nth_error (c_states c') i = back (c_states ci').
Proof. exact (@navigate_nth F NF SO e k c b c' os i m). Qed.
Print Assumptions C01_in_order.

(** which measurements are accepted: those not older than any before them, so
    the times are the weak left-to-right maxima *)
Theorem C01_accepted_spec {F : Type} (b : list (measurement F)) (m : measurement F) :
  accepted (b ++ [m]) = accepted b ++ (if existsb (fun x => st_ts m <? st_ts x)%Z b then [] else [m]) /\
  StronglySorted Z.le (map (@st_ts _) (accepted b)) /\
  (forall x, In x b -> exists y, In y (accepted b) /\ (st_ts x <= st_ts y)%Z).
Proof. exact (@accepted_spec F b m). Qed.
Print Assumptions C01_accepted_spec.

Example C01_example : map (@st_ts _) (accepted ex_b1) = [1000; 1500; 3000]%Z /\
  ex_stats (ex_run (ex_zones false) ex_gls (ex_garbage 0) [ex_b1]) = Ok [[NO_LEVEL; NO_LEVEL; OK]].
Proof. split; vm_compute; reflexivity. Qed.

(** ** C02 *)
Theorem C02_empty_batch {F : Type} {NF : Num F} {SO : Sorter} (e : env F) (k : config F) (c : client F)
    (bs1 bs2 : list (list (measurement F))) :
  navigate e k c [] = Ok (c, []) /\
  navigate_all e k c (bs1 ++ [] :: bs2) =
    ('(c1, o1) <- navigate_all e k c bs1 ;; '(c2, o2) <- navigate_all e k c1 bs2 ;; Ok (c2, o1 ++ [] :: o2)) /\
  navigate_all e k c (bs1 ++ bs2) =
    ('(c1, o1) <- navigate_all e k c bs1 ;; '(c2, o2) <- navigate_all e k c1 bs2 ;; Ok (c2, o1 ++ o2)).
Proof.
  split; [reflexivity|]. split; [exact (@empty_batch F NF SO e k c bs1 bs2)|exact (@navigate_all_app F NF SO e k bs1 bs2 c)].
Qed.
Print Assumptions C02_empty_batch.
Example C02_example : ex_stats (ex_run (ex_zones false) ex_gls (ex_garbage 0) [ex_b1; []; ex_b2; ex_b3]) =
  Ok [[NO_LEVEL; NO_LEVEL; OK]; []; [OK; OK]; [OK]].
Proof. vm_compute. reflexivity. Qed.

(** ** C03 *)
Theorem C03_split_batch {F : Type} {NF : Num F} {SO : Sorter} (e : env F) (k : config F) (c : client F)
    (b1 : list (measurement F)) (m2 : measurement F) (b2 : list (measurement F)) :
  b1 <> [] -> (forall m, In m b1 -> (st_ts m <= st_ts m2)%Z) ->
  navigate e k c (b1 ++ m2 :: b2) =
  ('(c1, o1) <- navigate e k c b1 ;; '(c2, o2) <- navigate e k c1 (m2 :: b2) ;;
   Ok (with_states c2 (c_states c1 ++ c_states c2), o1 ++ o2)).
Proof. exact (@split_batch F NF SO e k c b1 m2 b2). Qed.
Print Assumptions C03_split_batch.
(** any way of cutting an ordered stream into calls *)
Theorem C03_chunking {F : Type} {NF : Num F} {SO : Sorter} (e : env F) (k : config F)
    (bs : list (list (measurement F))) (c c' : client F) (os : list (list (noutput F))) :
  Forall (fun b => b <> []) bs -> bs <> [] -> time_sorted (List.concat bs) ->
  navigate_all e k c bs = Ok (c', os) ->
  exists l, navigate e k c (List.concat bs) = Ok (with_states c' l, List.concat os).
Proof. exact (@chunking F NF SO e k bs c c' os). Qed.
Print Assumptions C03_chunking.
Example C03_example : time_sorted (List.concat [[ex_mr "a" (-50) 1000; ex_mr "b" (-60) 1500]; ex_b2 : list (measurement SF); ex_b3]) /\
  ex_stats (ex_run (ex_zones false) ex_gls (ex_garbage 0) [[ex_mr "a" (-50) 1000; ex_mr "b" (-60) 1500]; ex_b2; ex_b3]) =
    Ok [[NO_LEVEL; NO_LEVEL]; [OK; OK]; [OK]].
Proof. split; [ex_sorted|vm_compute; reflexivity]. Qed.

(** ** C04 *)
Theorem C04_ordered_batch {F : Type} {NF : Num F} {SO : Sorter} (e : env F) (k : config F) (c : client F)
    (b : list (measurement F)) :
  b <> [] -> time_sorted b -> navigate e k c b = process e k (clear_states c) b.
Proof. exact (@ordered_batch F NF SO e k c b). Qed.
Print Assumptions C04_ordered_batch.
Theorem C04_single_measurements {F : Type} {NF : Num F} {SO : Sorter} (e : env F) (k : config F)
    (ms : list (measurement F)) (c c' : client F) (os : list (list (noutput F))) :
  navigate_all e k c (map (fun m => [m]) ms) = Ok (c', os) ->
  List.length os = List.length ms /\ Forall (fun o => List.length o = 1%nat) os.
Proof. exact (@singles F NF SO e k ms c c' os). Qed.
Print Assumptions C04_single_measurements.
(** time goes back from 3000 to 2000 *)
Theorem C04_time_monotone_refuted : exists (k : config SF) (c1 c2 : client SF) o1 o2,
  navigate_all ex_env k (client0 (ex_garbage 0) (cf_set k)) [ex_b1] = Ok (c1, o1) /\
  navigate_all ex_env k c1 [[ex_mr "a" (-60) 2000]] = Ok (c2, o2) /\ (pp_cur (c_pre c2) < pp_cur (c_pre c1))%Z.
Proof.
  destruct ex_sample as (k & _ & Es & _ & E). exists k.
  destruct (navigate_all ex_env k (client0 (ex_garbage 0) (cf_set k)) [ex_b1]) as [[c1 o1]| | |] eqn:E1;
    [|rewrite Es in E1; vm_compute in E; injection E as <-; vm_compute in E1; discriminate..].
  destruct (navigate_all ex_env k c1 [[ex_mr "a" (-60) 2000]]) as [[c2 o2]| | |] eqn:E2;
    [|rewrite Es in E1; vm_compute in E; injection E as <-; vm_compute in E1; injection E1 as <- <-; vm_compute in E2; discriminate..].
  exists c1, c2, o1, o2. split; [reflexivity|]. split; [exact E2|].
  rewrite Es in E1. vm_compute in E. injection E as <-. vm_compute in E1. injection E1 as <- <-. vm_compute in E2.
  injection E2 as <- <-. vm_compute. reflexivity.
Qed.
Print Assumptions C04_time_monotone_refuted.
Example C04_example : time_sorted (ex_b2 : list (measurement SF)).
Proof. ex_sorted. Qed.

(** ** C05 *)
Theorem C05_ok_iff_position {F : Type} {NF : Num F} {NO : NumOrd F} {SO : Sorter} (e : env F) (k : config F)
    (c c' : client F) (bs : list (list (measurement F))) (os : list (list (noutput F))) :
  reachable e k c -> navigate_all e k c bs = Ok (c', os) ->
  Forall (Forall (fun o => (o_status o = OK /\ reports_position (cf_col k) o) \/
                           (o_status o <> OK /\ reports_nothing o))) os.
Proof. exact (@report_history F NF SO e k c bs c' os f0_eqb). Qed.
Print Assumptions C05_ok_iff_position.
(** and what is reported is the client's position *)
Theorem C05_reports_client_position {F : Type} {NF : Num F} {SO : Sorter} (e : env F) (s : settings F)
    (gs : list (geolevel F)) (k : config F) (c c' : client F) (m : measurement F) (o : noutput F) :
  built s gs k -> NoDup (map (@gl_id F) gs) -> nav_step e k c m = Ok (c', o) ->
  if p_empty (c_pos c') then o_status o <> OK /\ reports_nothing o else same_place (cf_col k) (c_pos c') o.
Proof. intros Hb Hn. exact (@report_place F NF SO e k c m c' o (built_wf Hb Hn)). Qed.
Print Assumptions C05_reports_client_position.
Example C05_example : exists (k : config SF) c c' os, reachable ex_env k c /\
  navigate_all ex_env k c [ex_b1; ex_b2] = Ok (c', os) /\ map (map (@o_status SF)) os = [[NO_LEVEL; NO_LEVEL; OK]; [OK; OK]].
Proof.
  destruct ex_sample as (k & _ & Es & _ & E). exists k, (client0 (ex_garbage 0) (cf_set k)).
  destruct (navigate_all ex_env k (client0 (ex_garbage 0) (cf_set k)) [ex_b1; ex_b2]) as [[c1 o1]| | |] eqn:E1;
    [|rewrite Es in E1; vm_compute in E; injection E as <-; vm_compute in E1; discriminate..].
  exists c1, o1. split; [exists (ex_garbage 0), [], []; reflexivity|]. split; [reflexivity|].
  rewrite Es in E1. vm_compute in E. injection E as <-. vm_compute in E1. injection E1 as <- <-. reflexivity.
Qed.

(** ** C06 *)
Theorem C06_level_is_known {F : Type} {NF : Num F} {NO : NumOrd F} {SO : Sorter} (e : env F) (s : settings F)
    (gs : list (geolevel F)) (k : config F) (c c' : client F) (bs : list (list (measurement F)))
    (os : list (list (noutput F))) :
  built s gs k -> reachable e k c -> navigate_all e k c bs = Ok (c', os) ->
  Forall (Forall (fun o => o_status o = OK -> In (o_level o) (map (@gl_id F) gs))) os.
Proof. exact (@level_known F NF SO e s gs k c bs c' os f0_eqb). Qed.
Print Assumptions C06_level_is_known.
Example C06_example : ('(_, os) <- ex_run (ex_zones false) ex_gls (ex_garbage 0) ex_hist ;; Ok (map (map (@o_level SF)) os)) =
  Ok [[""; ""; "L1"]; ["L1"; "L1"]; ["L1"]].
Proof. vm_compute. reflexivity. Qed.

(** ** C07 *)
Theorem C07_never_throws {F : Type} {NF : Num F} {NO : NumOrd F} {SO : Sorter} (e : env F) (s : settings F)
    (gs : list (geolevel F)) (k : config F) (g : garbage F) (bs : list (list (measurement F))) :
  built s gs k -> NoDup (map (@gl_id F) gs) -> ~ In "" (map (@gl_id F) gs) ->
  navigate_all e k (client0 g s) bs <> Throw.
Proof. exact (@never_throws F NF NO SO e s gs k g bs f0_eqb). Qed.
Print Assumptions C07_never_throws.
Theorem C07_duplicate_ids_throw_refuted : exists (s : settings SF) gs k g bs,
  built s gs k /\ ~ In "" (map (@gl_id SF) gs) /\ navigate_all ex_env k (client0 g s) bs = Throw.
Proof.
  pose (gs := [ex_gl "L1" [ex_gtx "a" 1 1] []; ex_gl "L1" [ex_gtx "b" 10 1] []] : list (geolevel SF)).
  destruct (ex_config (ex_zones true) gs) as [k| | |] eqn:E; [|vm_compute in E; discriminate..].
  exists (ex_zones true), gs, k, (ex_garbage 0), [[ex_mr "b" (-50) 1000; ex_mr "b" (-50) 3000]].
  split; [exact (ex_built _ _ _ E)|]. split; [cbn; intuition discriminate|].
  vm_compute in E. injection E as <-. vm_compute. reflexivity.
Qed.
Print Assumptions C07_duplicate_ids_throw_refuted.
Example C07_example : exists k, built (ex_zones true) ex_gls k /\ NoDup (map (@gl_id SF) ex_gls) /\ ~ In "" (map (@gl_id SF) ex_gls).
Proof.
  destruct (ex_config (ex_zones true) ex_gls) as [k| | |] eqn:E; [|vm_compute in E; discriminate..].
  exists k. split; [exact (ex_built _ _ _ E)|apply ex_names].
Qed.

(** ** C08 *)
Theorem C08_no_signal_drops_level {F : Type} {NF : Num F} {SO : Sorter} (e : env F) (s : settings F)
    (gs : list (geolevel F)) (k : config F) (c c' : client F) (m : measurement F) (o : noutput F) :
  built s gs k -> NoDup (map (@gl_id F) gs) -> ~ In "" (map (@gl_id F) gs) ->
  nav_step e k c m = Ok (c', o) -> (1000 * s_nosignal s <= st_ts m - pp_signal (c_pre c'))%Z ->
  c_knn c' = c_knn c /\ c_post c' = c_post c /\ c_prevhead c' = c_prevhead c /\ c_prevgyro c' = c_prevgyro c /\
  exists outp,
    outdoor_position s (cf_col k) (c_outd c) (st_ts m) (pp_sensor (c_pre c')) (pp_nmea (c_pre c')) (c_flag c) =
      Ok (c_outd c', outp) /\
    c_pos c' = if p_empty outp then c_pos c else outp.
Proof. exact (@no_signal F NF SO e s gs k c m c' o). Qed.
Print Assumptions C08_no_signal_drops_level.

(** silence for 207 s, and no GNSS: the position stays *)
Example C08_example : exists (k : config SF) c o c' o',
  built (ex_zones false) ex_gls k /\ navigate_all ex_env k (client0 (ex_garbage 0) (cf_set k)) [ex_b1; ex_b2] = Ok (c, o) /\
  nav_step ex_env k c (ex_msn ACCELEROMETER 0 0 9 210000) = Ok (c', o') /\
  (1000 * s_nosignal (ex_zones false : settings SF) <= 210000 - pp_signal (c_pre c'))%Z /\ p_empty (c_pos c') = false.
Proof.
  destruct ex_sample as (k & B & Es & _ & E). exists k.
  destruct (navigate_all ex_env k (client0 (ex_garbage 0) (cf_set k)) [ex_b1; ex_b2]) as [[c1 o1]| | |] eqn:E1;
    [|rewrite Es in E1; vm_compute in E; injection E as <-; vm_compute in E1; discriminate..].
  exists c1, o1. rewrite Es in E1. vm_compute in E. injection E as <-. vm_compute in E1. injection E1 as <- <-.
  do 2 eexists. split; [exact B|]. split; [reflexivity|]. split; [vm_compute; reflexivity|].
  split; [vm_compute; discriminate|reflexivity].
Qed.

(** ** C09 *)
(** the time of the last signal is that of the state the silence starts from *)
Theorem C09_stays_ok {F : Type} {NF : Num F} {SO : Sorter} (e : env F) (s : settings F) (gs : list (geolevel F))
    (k : config F) (c c' : client F) (bs : list (list (measurement F))) (os : list (list (noutput F))) :
  built s gs k -> NoDup (map (@gl_id F) gs) -> ~ In "" (map (@gl_id F) gs) ->
  p_empty (c_pos c) = false -> Forall (Forall (stale k c)) bs -> navigate_all e k c bs = Ok (c', os) ->
  p_empty (c_pos c') = false /\ Forall (Forall (fun o => o_status o = OK)) os.
Proof. exact (@stale_built F NF SO e s gs k c bs c' os). Qed.
Print Assumptions C09_stays_ok.
Theorem C09_frozen {F : Type} {NF : Num F} {SO : Sorter} (e : env F) (s : settings F) (gs : list (geolevel F))
    (k : config F) (c c' : client F) (bs : list (list (measurement F))) (os : list (list (noutput F))) :
  built s gs k -> NoDup (map (@gl_id F) gs) -> ~ In "" (map (@gl_id F) gs) ->
  s_type (st_data (pp_sensor (c_pre c))) <> LOCATION ->
  Forall (Forall (deaf k c)) bs -> navigate_all e k c bs = Ok (c', os) ->
  c_pos c' = c_pos c /\
  Forall (Forall (fun o => if p_empty (c_pos c) then o_status o = NO_LEVEL else same_place (cf_col k) (c_pos c) o)) os.
Proof. exact (@deaf_built F NF SO e s gs k c bs c' os). Qed.
Print Assumptions C09_frozen.
(** without the silence reaching the threshold first, the position can be lost:
    between the dead-reckoning limit and the threshold it is cleared *)
Theorem C09_never_cleared_refuted : exists (k : config SF) (c1 c2 : client SF) o1 o2,
  navigate_all ex_env k (client0 (ex_garbage 0) (cf_set k)) [[ex_mr "a" (-50) 1000; ex_mr "b" (-60) 3000]] = Ok (c1, o1) /\
  p_empty (c_pos c1) = false /\
  navigate_all ex_env k c1 [[ex_msn ACCELEROMETER 0 0 9 10000]; [ex_msn ACCELEROMETER 0 0 9 50000]] = Ok (c2, o2) /\
  map (map (@o_status SF)) o2 = [[NO_SOLUTION]; [NO_LEVEL]].
Proof.
  destruct ex_sample as (k & _ & Es & _ & E). exists k.
  destruct (navigate_all ex_env k (client0 (ex_garbage 0) (cf_set k)) [[ex_mr "a" (-50) 1000; ex_mr "b" (-60) 3000]])
    as [[c1 o1]| | |] eqn:E1;
    [|rewrite Es in E1; vm_compute in E; injection E as <-; vm_compute in E1; discriminate..].
  rewrite Es in E1. vm_compute in E. injection E as <-. vm_compute in E1. injection E1 as <- <-.
  do 4 eexists. split; [reflexivity|]. split; [reflexivity|]. split; [vm_compute; reflexivity|]. reflexivity.
Qed.
Print Assumptions C09_never_cleared_refuted.
(** the last batch of [ex_hist] is silence after 207 s *)
Example C09_example : exists (k : config SF) c o,
  built (ex_zones false) ex_gls k /\ navigate_all ex_env k (client0 (ex_garbage 0) (cf_set k)) [ex_b1; ex_b2] = Ok (c, o) /\
  p_empty (c_pos c) = false /\ s_type (st_data (pp_sensor (c_pre c))) <> LOCATION /\ Forall (Forall (deaf k c)) [ex_b3].
Proof.
  destruct ex_sample as (k & B & Es & _ & E). exists k.
  destruct (navigate_all ex_env k (client0 (ex_garbage 0) (cf_set k)) [ex_b1; ex_b2]) as [[c1 o1]| | |] eqn:E1;
    [|rewrite Es in E1; vm_compute in E; injection E as <-; vm_compute in E1; discriminate..].
  exists c1, o1. split; [exact B|]. split; [reflexivity|].
  rewrite Es in E1. vm_compute in E. injection E as <-. vm_compute in E1. injection E1 as <- <-.
  split; [reflexivity|]. split; [discriminate|]. repeat constructor; vm_compute; discriminate.
Qed.

(** ** C10 *)
Theorem C10_noaction_ineffective {F : Type} {NF : Num F} {SO : Sorter} (e : env F) (s : settings F)
    (gs : list (geolevel F)) (k : config F) (z : Z) :
  (0 < s_noaction s)%Z -> (0 < z)%Z -> built s gs k ->
  exists k', built (with_noaction s z) gs k' /\ forall c bs, navigate_all e k' c bs = navigate_all e k c bs.
Proof. exact (@noaction_built F NF SO e s gs k z). Qed.
Print Assumptions C10_noaction_ineffective.
Example C10_example : (0 < s_noaction (ex_zones false : settings SF))%Z /\ s_noaction (with_noaction (ex_zones false : settings SF) 1) = 1%Z /\
  ex_stats (ex_run (with_noaction (ex_zones false) 1) ex_gls (ex_garbage 0) ex_hist) = Ok [[NO_LEVEL; NO_LEVEL; OK]; [OK; OK]; [OK]].
Proof. split; [reflexivity|]. split; [reflexivity|]. vm_compute. reflexivity. Qed.

(** ** C11 *)
Theorem C11_rejected_measurements {F : Type} {NF : Num F} {SO : Sorter} (e : env F) (s : settings F)
    (gs : list (geolevel F)) (k : config F) (c : client F) (bs bs' : list (list (measurement F))) :
  built s gs k -> NoDup (map (@gl_id F) gs) ->
  Forall2 (Forall2 (same_but_rejected (cf_set k) (cf_col k))) bs bs' -> navigate_all e k c bs = navigate_all e k c bs'.
Proof. intros Hb Hn H. exact (@rejected_history F NF SO e k bs bs' (built_wf Hb Hn) H c). Qed.
Print Assumptions C11_rejected_measurements.
(** an unknown transmitter and a known one below the cut-off *)
Example C11_example : exists (k : config SF), built (ex_zones false) ex_gls k /\
  Forall2 (Forall2 (same_but_rejected (cf_set k) (cf_col k)))
    [[ex_mr "a" (-50) 1000; ex_mr "zz" (-50) 2000]] [[ex_mr "a" (-50) 1000; ex_mr "b" (-110) 2000]].
Proof.
  destruct ex_sample as (k & B & Es & Hw & E). exists k. split; [exact B|].
  rewrite Es. vm_compute in E. injection E as <-. 
  constructor; [|constructor]. constructor; [left; reflexivity|]. constructor; [|constructor]. right. split; [reflexivity|].
  split; eexists; (split; [reflexivity|]); intros A.
  - destruct (valid_signal_spec (ex_zones false) (ex_radio "zz" (-50)) Hw) as (v & E & Hv). apply Hv in A. subst v.
    vm_compute in E. discriminate.
  - destruct (valid_signal_spec (ex_zones false) (ex_radio "b" (-110)) Hw) as (v & E & Hv). apply Hv in A. subst v.
    vm_compute in E. discriminate.
Qed.

(** ** C12 *)
Theorem C12_uninitialised_members {F : Type} {NF : Num F} {SO : Sorter} (e : env F) (k : config F) (g : garbage F)
    (m : measurement F) (c' : client F) (o : noutput F) :
  nav_step e k (client0 g (cf_set k)) m = Ok (c', o) ->
  (pp_signal (c_pre c') = g_signal g /\ pp_sensor (c_pre c') = g_sensor g) \/
  (pp_signal (c_pre c') = g_signal g /\ pp_nmea (c_pre c') = g_nmea g) \/
  (pp_sensor (c_pre c') = g_sensor g /\ pp_nmea (c_pre c') = g_nmea g).
Proof. exact (@first_call F NF SO e k g m c' o). Qed.
Print Assumptions C12_uninitialised_members.
(** a stale sensor sample taken for a GNSS position *)
Definition ex_stale_sensor (ty : stype) : garbage SF :=
  mkGarb 0 (ex_sensor ty 1 1 0 1000) (mkSt (mkNmea 0 0) 0%Z) (ex_sensor MAGNETOMETER 0 0 0 0) (ex_sensor ACCELEROMETER 0 0 0 0).
Theorem C12_deterministic_refuted : exists (s : settings SF) gs k g g' b c o c' o',
  built s gs k /\ navigate_all ex_env k (client0 g s) [b] = Ok (c, o) /\
  navigate_all ex_env k (client0 g' s) [b] = Ok (c', o') /\
  map (map (@o_status SF)) o = [[OK]] /\ map (map (@o_status SF)) o' = [[NO_LEVEL]].
Proof.
  destruct (ex_config (ex_zones_og false true) ex_gls) as [k| | |] eqn:E; [|vm_compute in E; discriminate..].
  exists (ex_zones_og false true), ex_gls, k, (ex_stale_sensor LOCATION), (ex_stale_sensor ACCELEROMETER),
    [mkSt (MNmea (mkNmea 30 30)) 1000%Z].
  assert (B := ex_built _ _ _ E). vm_compute in E. injection E as <-.
  do 4 eexists. split; [exact B|].
  split; [vm_compute; reflexivity|]. split; [vm_compute; reflexivity|]. split; reflexivity.
Qed.
Print Assumptions C12_deterministic_refuted.

(** ** C13 *)
Theorem C13_no_gyro_heading {F : Type} {NF : Num F} {NO : NumOrd F} {SO : Sorter} (e : env F) (k : config F) (c : client F) :
  reachable e k c -> c_prevgyro c = None /\ (c_prevhead c = None \/ c_prevhead c = Some f0).
Proof. exact (@no_gyro F NF SO e k c f0_eqb). Qed.
Print Assumptions C13_no_gyro_heading.
(** an indoor fix without a valid azimuth *)
Theorem C13_constant_azimuth {SO : Sorter} (e : env RX) (k : config RX) (c c' : client RX) (m : measurement RX)
    (o : noutput RX) (x : RX) :
  reachable e k c -> nav_step e k c m = Ok (c', o) -> o_orient o = Some x -> c_flag c' = true ->
  s_calcaz (cf_set k) = false -> azimuth_outdated (cf_conf (cf_set k)) (sf_cf (c_sf c')) = true ->
  x = Some (if s_enu (cf_set k) then 0 else PI / 2)%R.
Proof. exact (@azimuth_const SO e k c m c' o x). Qed.
Print Assumptions C13_constant_azimuth.
(** the hypotheses, met on binary64 by the indoor fix of [ex_b1] *)
Example C13_example : exists (k : config SF) c o,
  navigate_all ex_env k (client0 (ex_garbage 0) (cf_set k)) [ex_b1] = Ok (c, o) /\ c_flag c = true /\
  s_calcaz (cf_set k) = false /\ azimuth_outdated (cf_conf (cf_set k)) (sf_cf (c_sf c)) = true /\
  map (map (@o_orient SF)) o = [[None; None; Some fpi2]].
Proof.
  destruct ex_sample as (k & B & Es & _ & E). exists k.
  destruct (navigate_all ex_env k (client0 (ex_garbage 0) (cf_set k)) [ex_b1]) as [[c1 o1]| | |] eqn:E1;
    [|rewrite Es in E1; vm_compute in E; injection E as <-; vm_compute in E1; discriminate..].
  exists c1, o1. rewrite Es in E1. vm_compute in E. injection E as <-. vm_compute in E1. injection E1 as <- <-.
  split; [reflexivity|]. split; [reflexivity|]. split; [reflexivity|]. split; vm_compute; reflexivity.
Qed.
