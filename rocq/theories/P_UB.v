(** C86: no undefined behaviour, in the client and in the program. *)
From Coq Require Import Lia Lra Sorted SpecFloat.
From Verif Require Import Lib NumOrd NumFin NumReal NumFloat SortInst Client Spec_Client Spec_UB Driver Spec_Driver Tools Json JsonDoc
  Spec_Json Spec_Tools Spec_Doc Triangulation Spec_Tri Pf_Json Pf_JsonF Pf_ClientUB Pf_DocUB Ex P_Client P_Json P_Doc.
Local Open Scope string_scope.
Local Open Scope list_scope.
#[local] Existing Instance nf. #[local] Existing Instance isorter.

(** a client with sane settings and a sane log neither throws nor has undefined
    behaviour: it gives a result or stays in an angle loop *)
Theorem C86_no_ub {F : Type} {NF : Num F} {NO : NumOrd F} {NN : NumFin F} {SO : Sorter} (e : env F) (s : settings F)
    (gs : list (geolevel F)) (k : config F) (g : garbage F) (bs : list (list (measurement F))) :
  built s gs k -> NoDup (map (@gl_id F) gs) -> ~ In "" (map (@gl_id F) gs) ->
  sane_settings s -> sane_log s bs -> result_or_loop (navigate_all e k (client0 g s) bs).
Proof. exact (@no_ub F NF NO NN SO e s gs k g bs). Qed.
Print Assumptions C86_no_ub.
(** in doubles, whatever the mathematical functions are *)
Theorem C86_doubles (t : transc) {SO : Sorter} (e : env SF) (s : settings SF)
    (gs : list (geolevel SF)) k (g : garbage SF) (bs : list (list (measurement SF))) :
  @built SF (num_float t) SO s gs k -> NoDup (map (@gl_id SF) gs) -> ~ In "" (map (@gl_id SF) gs) ->
  @sane_settings SF (num_float t) s -> @sane_log SF (num_float t) s bs ->
  result_or_loop (@navigate_all SF (num_float t) SO e k (@client0 SF (num_float t) g s) bs).
Proof. exact (@no_ub SF (num_float t) (ord_float t) (fin_float t) SO e s gs k g bs). Qed.
Print Assumptions C86_doubles.
(** over the reals every angle loop ends, so there is a result, the same for
    every large enough bound *)
Theorem C86_total {SO : Sorter} svd (s : settings RX) (gs : list (geolevel RX)) (k : config RX) (g : garbage RX)
    (bs : list (list (measurement RX))) :
  built s gs k -> NoDup (map (@gl_id RX) gs) -> ~ In "" (map (@gl_id RX) gs) ->
  sane_settings s -> sane_log s bs ->
  exists r n0, forall n, (n0 <= n)%nat -> navigate_all (mkEnv n svd) k (client0 g s) bs = Ok r.
Proof. exact (@total_real SO svd s gs k g bs). Qed.
Print Assumptions C86_total.

(** settings as a file gives them *)
Definition ex_set (m : list (string * json SF)) : settings SF :=
  match @get_common SF nf (JObj m) (s_levels (ex_zones false)) with Ok s => s | _ => ex_zones false end.
Definition ex_lsq (t : Z) : settings SF :=
  ex_set [("Sig_averaging_time", JInt t); ("Use_ab_filter", JBool false); ("Use_algorithm", JStr "ZONES"); ("Use_gps", JBool true)].
Definition ex_near (mt : string) : settings SF :=
  ex_set [("Measurement_type", JStr mt); ("Use_Signals", JStr "both"); ("Use_algorithm", JStr "ZONES"); ("Use_closest_aps", JBool true)].
Definition ex_rtt (a : SF) : list (measurement SF) :=
  let m id r ts := mkSt (MRadio (mkRadio WIFI_RTT id r (@fofZ SF nf 0) (@fofZ SF nf 1) (@fofZ SF nf 0))) ts in
  [m "a" a 1000; m "b" (@fofZ SF nf (-60)) 1100; m "c" (@fofZ SF nf (-55)) 1200; m "b" (@fofZ SF nf (-55)) 3000]%Z.

(** a negative averaging time with the least-squares smoother empties a deque
    that is then read (as do, in C26, fixes under a sigma filter without window) *)
Theorem C86_negative_memory_refuted : exists (s : settings SF) gs k g bs,
  built s gs k /\ NoDup (map (@gl_id SF) gs) /\ ~ In "" (map (@gl_id SF) gs) /\ s_sigma s = false /\ s_altitude s = false /\
  sane_log s bs /\ navigate_all ex_env k (client0 g s) bs = UB.
Proof.
  destruct (ex_config (ex_lsq (-1)) ex_gls) as [k| | |] eqn:E; [|vm_compute in E; discriminate..].
  exists (ex_lsq (-1)), ex_gls, k, (ex_garbage 0), [ex_b1]. split; [exact (ex_built _ _ _ E)|]. split; [apply ex_names|]. split; [apply ex_names|].
  split; [reflexivity|]. split; [reflexivity|]. split; [vm_compute; discriminate|].
  vm_compute in E. injection E as <-. vm_compute. reflexivity.
Qed.
Print Assumptions C86_negative_memory_refuted.
(** one signal strength that is not a number, in a distance mode with
    closest transmitters, makes the sort undefined *)
Theorem C86_nan_rssi_refuted : exists (s : settings SF) gs k g bs,
  built s gs k /\ NoDup (map (@gl_id SF) gs) /\ ~ In "" (map (@gl_id SF) gs) /\ sane_settings s /\
  navigate_all ex_env k (client0 g s) bs = UB.
Proof.
  destruct (ex_config (ex_near "distance_v1") ex_gls) as [k| | |] eqn:E; [|vm_compute in E; discriminate..].
  exists (ex_near "distance_v1"), ex_gls, k, (ex_garbage 0), [ex_rtt S754_nan]. split; [exact (ex_built _ _ _ E)|]. split; [apply ex_names|]. split; [apply ex_names|].
  split; [split; [vm_compute; discriminate|split; [vm_compute; reflexivity|reflexivity]]|].
  vm_compute in E. injection E as <-. vm_compute. reflexivity.
Qed.
Print Assumptions C86_nan_rssi_refuted.
(** the hypotheses on runs with the smoother and with closest transmitters *)
Example C86_example :
  sane_settings (ex_lsq 1) /\ sane_log (ex_lsq 1) [ex_b1] /\
  ex_stats (ex_run (ex_lsq 1) ex_gls (ex_garbage 0) [ex_b1]) = Ok [[NO_LEVEL; NO_LEVEL; OK]] /\
  sane_settings (ex_near "distance_v1") /\ sane_log (ex_near "distance_v1") [ex_rtt (fofZ (-50))] /\
  ex_stats (ex_run (ex_near "distance_v1") ex_gls (ex_garbage 0) [ex_rtt (fofZ (-50))]) = Ok [[NO_LEVEL; NO_LEVEL; NO_LEVEL; OK]] /\
  sane_log (ex_near "rssi") [ex_rtt S754_nan] /\
  ex_stats (ex_run (ex_near "rssi") ex_gls (ex_garbage 0) [ex_rtt S754_nan]) = Ok [[NO_LEVEL; NO_LEVEL; NO_LEVEL; OK]].
Proof.
  assert (S : forall s : settings SF, s_sigma s = false -> (s_avg s <! f0) = false -> s_altitude s = false -> sane_settings s).
  { intros s H1 H2 H3. split; [congruence|]. auto. }
  split; [apply S; vm_compute; reflexivity|]. split; [vm_compute; discriminate|]. split; [vm_compute; reflexivity|].
  split; [apply S; vm_compute; reflexivity|]. split.
  { intros _. split; [vm_compute; reflexivity|]. intros _ m r Hm Hr. cbn [List.concat app ex_rtt] in Hm.
    repeat (destruct Hm as [<-|Hm]; [injection Hr as <-; vm_compute; reflexivity|]). destruct Hm. }
  split; [vm_compute; reflexivity|]. split; [|vm_compute; reflexivity].
  intros _. split; [vm_compute; reflexivity|]. intros H. vm_compute in H. congruence.
Qed.

(** the program on well-formed files: the client can be built for algorithms
    other than KNN when every level has its settings and the durations fit, and
    any client that can be built gives its lines or stays in an angle loop *)
Theorem C86_program {F : Type} {NF : Num F} {NO : NumOrd F} {NN : NumFin F} {SO : Sorter} (geom : list (poly F) -> box F * (F -> F -> bool))
    (ord : list (Z * Geo F) -> list (Z * Geo F)) (e : env F) (g : garbage F) (h : F) (fuel : nat)
    (mapf setf : json F) (logf : list (json F)) xs c ls (ms : list (measurement F)) (n : Z) :
  any_order ord -> map_file fuel mapf xs -> settings_file setf c ls -> log_file logf ms ->
  (0 < n)%Z -> (Z.of_nat (List.length ms) + n < 2 ^ 64)%Z -> (List.length ms <= fuel)%nat ->
  (forall a, ~ In (JLevel "" a) xs) ->
  exists gs s, parse_geojson geom fuel ord xs = Ok gs /\ Forall (has_setting c s) rows /\ s_altitude s = false /\
    (forall lv, (exists ab, alookup lv (s_levels s) = Some ab) <-> In lv (map fst ls)) /\
    (s_algo s <> KNN -> (forall lv a, In (JLevel lv a) xs -> In lv (map fst ls)) ->
     (forall x, In x [s_avg s; s_shift s; s_stopdetect s; s_deadreck s; s_stopupdate s] -> exists z, ftoZ (fofZ 1000 *! x) = Some z) ->
     exists k, built s gs k) /\
    forall k, built s gs k -> sane_settings s -> sane_log s [ms] ->
      result_or_loop (program geom ord fuel e g h mapf logf setf n).
Proof. intros O. apply program_ub; assumption. Qed.
Print Assumptions C86_program.
(** ... and over the reals it gives its lines *)
Theorem C86_program_total {SO : Sorter} (geom : list (poly RX) -> box RX * (RX -> RX -> bool))
    (ord : list (Z * Geo RX) -> list (Z * Geo RX)) svd (g : garbage RX) (h : RX) (fuel : nat)
    (mapf setf : json RX) (logf : list (json RX)) xs c ls (ms : list (measurement RX)) (n : Z) :
  any_order ord -> map_file fuel mapf xs -> settings_file setf c ls -> log_file logf ms ->
  (0 < n)%Z -> (Z.of_nat (List.length ms) + n < 2 ^ 64)%Z -> (List.length ms <= fuel)%nat ->
  (forall a, ~ In (JLevel "" a) xs) ->
  exists gs s, parse_geojson geom fuel ord xs = Ok gs /\ Forall (has_setting c s) rows /\ s_altitude s = false /\
    (forall lv, (exists ab, alookup lv (s_levels s) = Some ab) <-> In lv (map fst ls)) /\
    forall k, built s gs k -> sane_settings s -> sane_log s [ms] ->
      exists os n0, forall m, (n0 <= m)%nat -> exists lss, program geom ord fuel (mkEnv m svd) g h mapf logf setf n = Ok lss /\
        map (map (@ln_out RX)) lss = os.
Proof. intros O. apply program_total; assumption. Qed.
Print Assumptions C86_program_total.

(** In doubles, from the files alone: a settings file that is safe, for an
    algorithm other than KNN and with an entry for every level, and finite
    signal strengths. *)
Lemma of_file (c : list (string * json SF)) (s : settings SF) (t : transc) :
  keys_sorted c -> Forall (@has_setting SF c s) (@rows SF (num_float t)) -> s_altitude s = false -> @safe_file SF (num_float t) c ->
  @sane_settings SF (num_float t) s /\
  forall x, In x [s_avg s; s_shift s; s_stopdetect s; s_deadreck s; s_stopupdate s] ->
    exists z, @ftoZ SF (num_float t) (@fmul SF (num_float t) (@fofZ SF (num_float t) 1000) x) = Some z.
Proof.
  intros Kc Hr Ha (S1 & S2 & S3). rewrite Forall_forall in Hr.
  assert (A : forall key proj dflt, In (@num SF (num_float t) key proj dflt) (@rows SF (num_float t)) -> In key durations ->
    (exists z, @ftoZ SF (num_float t) (@fmul SF (num_float t) (@fofZ SF (num_float t) 1000) dflt) = Some z) ->
    exists z, @ftoZ SF (num_float t) (@fmul SF (num_float t) (@fofZ SF (num_float t) 1000) (proj s)) = Some z).
  { intros key proj dflt Hin Hk Hd. destruct (Hr _ Hin) as [(v & Hv & Mv)|[_ ->]]; [exact (S3 _ _ _ Hk Hv Mv)|exact Hd]. }
  split.
  - split; [|split; [|exact Ha]].
    + intros Hs. assert (R1 := Hr (@flag SF "Use_gps_sigma_filter" (@s_sigma SF) false)).
      assert (R2 := Hr (@count SF (num_float t) "Sigma_filter_window" (@s_sigmawin SF) 1%nat)).
      destruct R1 as [(v & Hv & Mv)|[_ E]]; [unfold rows; cbn [In]; tauto| |congruence].
      destruct R2 as [(w & Hw & Mw)|[_ ->]]; [unfold rows; cbn [In]; tauto| |discriminate].
      rewrite Hs in Mv. inversion Mv; subst. intros E. rewrite E in Mw. exact (S1 Hv _ Hw Mw).
    + intros _ _. assert (R := Hr (@num SF (num_float t) "Sig_averaging_time" (@s_avg SF) (@fofZ SF (num_float t) 1))).
      destruct R as [(v & Hv & Mv)|[_ ->]]; [unfold rows; cbn [In]; tauto|exact (S2 _ _ Hv Mv)|vm_compute; reflexivity].
  - intros x Hx. cbn [In] in Hx. destruct Hx as [<-|[<-|[<-|[<-|[<-|[]]]]]].
    + apply (A "Sig_averaging_time" (@s_avg SF) (@fofZ SF (num_float t) 1)); [unfold rows; cbn [In]; tauto|cbn; tauto|eexists; vm_compute; reflexivity].
    + apply (A "Sig_window_shift" (@s_shift SF) (@fofZ SF (num_float t) 0)); [unfold rows; cbn [In]; tauto|cbn; tauto|eexists; vm_compute; reflexivity].
    + apply (A "Stop_detection_time" (@s_stopdetect SF) (@fofZ SF (num_float t) 3)); [unfold rows; cbn [In]; tauto|cbn; tauto|eexists; vm_compute; reflexivity].
    + apply (A "Dead_reckon_time" (@s_deadreck SF) (@fofZ SF (num_float t) 5)); [unfold rows; cbn [In]; tauto|cbn; tauto|eexists; vm_compute; reflexivity].
    + apply (A "Stop_update_time" (@s_stopupdate SF) (@fofZ SF (num_float t) 4)); [unfold rows; cbn [In]; tauto|cbn; tauto|eexists; vm_compute; reflexivity].
Qed.
Theorem C86_files (t : transc) {SO : Sorter} (geom : list (poly SF) -> box SF * (SF -> SF -> bool))
    (ord : list (Z * Geo SF) -> list (Z * Geo SF)) (e : env SF) (g : garbage SF) (h : SF) (fuel : nat)
    (mapf setf : json SF) (logf : list (json SF)) xs c ls (ms : list (measurement SF)) (n : Z) :
  any_order ord -> @map_file SF (num_float t) fuel mapf xs -> @settings_file SF (num_float t) setf c ls -> @log_file SF (num_float t) logf ms ->
  (0 < n)%Z -> (Z.of_nat (List.length ms) + n < 2 ^ 64)%Z -> (List.length ms <= fuel)%nat ->
  (forall a, ~ In (JLevel "" a) xs) -> (forall lv a, In (JLevel lv a) xs -> In lv (map fst ls)) ->
  ~ In ("Use_algorithm", JStr "KNN") c -> @safe_file SF (num_float t) c ->
  (forall m r, In m ms -> st_data m = MRadio r -> @fisfinite SF (num_float t) (r_rssi r) = true) ->
  result_or_loop (@program SF (num_float t) SO geom ord fuel e g h mapf logf setf n).
Proof.
  intros O Hm Hs Hl H1 H2 H3 He Hlv Hk Sf Hf.
  destruct (@program_ub SF (num_float t) (ord_float t) (fin_float t) SO geom ord O e g h fuel mapf setf logf xs c ls ms n Hm Hs Hl H1 H2 H3 He)
    as (gs & s & E & Hr & Al & Lv & B & R).
  destruct Hs as (top & lj & rest & _ & _ & _ & _ & _ & Kc & _).
  destruct (of_file c s t Kc Hr Al Sf) as [Ss Fit].
  assert (Hnk : s_algo s <> KNN).
  { unfold rows in Hr. apply Forall_inv in Hr. cbn [has_setting] in Hr. destruct Hr as [(v & Hv & Mv)|[_ ->]]; [|discriminate].
    intros Ea. rewrite Ea in Mv. inversion Mv as [s0 e0 Hin E0 Ee|v0 Hv0]; subst.
    cbn in Hin. repeat (destruct Hin as [Hin|Hin]; [injection Hin; intros; subst; try discriminate; tauto|]). destruct Hin. }
  destruct (B Hnk Hlv Fit) as [k K]. apply (R k K Ss).
  intros _. cbn [List.concat]. rewrite app_nil_r. split; [lia|]. intros _. exact Hf.
Qed.
Print Assumptions C86_files.
(** the files of C85 are such files *)
Example C86_example_files : @safe_file SF nf [("Use_algorithm", JStr "ZONES")] /\
  (forall m r, In m ex_said -> st_data m = MRadio r -> @fisfinite SF nf (r_rssi r) = true) /\
  @safe_file SF nf [("Sig_averaging_time", JInt 2); ("Sigma_filter_window", JInt 3); ("Use_gps_sigma_filter", JBool true)] /\
  ~ @safe_file SF nf [("Sigma_filter_window", JInt (2 ^ 32)); ("Use_gps_sigma_filter", JBool true)].
Proof.
  split; [|split; [|split]].
  - unfold safe_file, durations. cbn [In]. split; [|split]; intros; repeat match goal with H : _ \/ _ |- _ => destruct H end; subst; try congruence; tauto.
  - intros m r Hm Hr. repeat (destruct Hm as [<-|Hm]; [discriminate Hr || (injection Hr as <-; vm_compute; reflexivity)|]). destruct Hm.
  - unfold safe_file, durations. split; [|split].
    + intros _ v Hv M. cbn [In] in Hv. repeat (destruct Hv as [Hv|Hv]; [try discriminate Hv|]); [|destruct Hv]. injection Hv as <-. inversion M. lia.
    + intros v x Hv M. cbn [In] in Hv. repeat (destruct Hv as [Hv|Hv]; [try discriminate Hv|]); [|destruct Hv]. injection Hv as <-. inversion M. vm_compute. reflexivity.
    + intros key v x Hk Hv M. cbn [In] in Hv, Hk. destruct Hv as [Hv|[Hv|[Hv|[]]]]; injection Hv as <- <-.
      * inversion M. eexists. vm_compute. reflexivity.
      * exfalso. repeat (destruct Hk as [Hk|Hk]; [discriminate Hk|]). destruct Hk.
      * exfalso. repeat (destruct Hk as [Hk|Hk]; [discriminate Hk|]). destruct Hk.
  - intros (S & _). apply (S ltac:(cbn; tauto) (JInt (2 ^ 32)) ltac:(cbn; tauto)). unfold means_nat. apply (@mi_int SF nf _ _ _ 1%Z); cbn; lia.
Qed.

(** over the reals a KNN client can be built exactly when the durations fit, if
    the reference points of a level have distinct names, none of them reserved,
    and distinct places *)
Definition vertices {F : Type} (l : level F) : list (tvert F) :=
  map (fun rp => mkTV (px (rp_pt rp)) (py (rp_pt rp)) (rp_id rp)) (rm_points (l_rm l)).
Theorem C86_knn_built {SO : Sorter} (s : settings RX) (c : collector RX) :
  s_algo s = KNN -> (forall l, In l (col_levels c) -> proper (vertices l)) ->
  let fits := forall x, In x [s_avg s; s_shift s; s_stopdetect s; s_deadreck s; s_stopupdate s] -> exists z, ftoZ (fofZ 1000 *! x) = Some z in
  ((exists k, mk_config s c = Ok k) <-> fits) /\ (mk_config s c = UB <-> ~ fits).
Proof. exact (@knn_config SO s c). Qed.
Print Assumptions C86_knn_built.
Example C86_example_knn : forall l, In l (col_levels (@ex_col RX num_real)) -> proper (vertices l).
Proof.
  intros l [<-|[<-|[]]]; unfold proper, vertices; cbn [ex_L1 ex_L2 ex_level l_rm mk_radiomap rm_points map ex_rp rp_pt rp_id px py].
  - split; [repeat constructor|]. split; [cbn; repeat constructor; cbn; intuition discriminate|]. split; [intros v [<-|[<-|[<-|[]]]]; cbn; intuition discriminate|].
    unfold loc. cbn. repeat constructor; cbn; intros H; repeat (destruct H as [H|H]; [injection H; intros; lra|]); destruct H.
  - split; [repeat constructor|]. split; [cbn; repeat constructor; cbn; intuition discriminate|]. split; [intros v [<-|[]]; cbn; intuition discriminate|].
    unfold loc. cbn. repeat constructor. intros [].
Qed.
