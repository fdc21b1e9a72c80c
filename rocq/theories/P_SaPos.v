(** C65-C68: the stand-alone position estimation. *)
From Coq Require Import Reals Lra Permutation Sorted.
From Verif Require Import Lib NumOrd NumReal NumFloat LibR SortInst Preproc Spec_Preproc Smooth Spec_Smooth Spec_Track Pf_Track SaPos Spec_SaPos Pf_SaPos Pf_SaSmooth Ex P_Track.
Local Open Scope string_scope.
Local Open Scope list_scope.
#[local] Existing Instance nf.
#[local] Existing Instance isorter.

(** ** C65: the measurement window *)
Theorem C65_window {F : Type} {NF : Num F} {SO : Sorter} (c : sacfg) (ops : list (saop F)) : sa_timed ops ->
  sa_outs_ok c sawin0 ops (snd (sa_run c sabuf0 ops)).
Proof. exact (@sa_window F NF SO c ops). Qed.
Print Assumptions C65_window.

(** the buffer holds measurements other than the first, none newer than the
    newest time and none older than the last packet minus the keep period *)
Theorem C65_recent {F : Type} {NF : Num F} {SO : Sorter} (c : sacfg) (ops : list (saop F)) :
  (0 <= sc_keep c)%Z -> (0 <= sc_shift c)%Z -> sa_timed ops ->
  let b := fst (sa_run c sabuf0 ops) in
  Forall (fun m => In m (tl (sa_added ops)) /\ (sb_last b - sc_keep c <= st_ts m <= sb_cur b)%Z) (sb_ms b).
Proof. exact (@sa_recent F NF SO c ops). Qed.
Print Assumptions C65_recent.

(** the first measurement counts only through its time *)
Theorem C65_first_ignored {F : Type} {NF : Num F} {SO : Sorter} (c : sacfg) (m m' : stamped (radio F)) ops :
  st_ts m = st_ts m' -> sa_run c sabuf0 (SaAdd m :: ops) = sa_run c sabuf0 (SaAdd m' :: ops).
Proof. exact (@sa_first F NF SO c m m' ops). Qed.
Print Assumptions C65_first_ignored.

(** a measurement no newer than the last packet changes nothing *)
Theorem C65_late_ignored {F : Type} {NF : Num F} {SO : Sorter} (c : sacfg) (m : stamped (radio F)) ops1 ops2 :
  sa_timed ops1 -> sa_added ops1 <> [] -> (st_ts m <= sb_last (fst (sa_run c sabuf0 ops1)))%Z -> (0 <= sc_shift c)%Z ->
  snd (sa_run c sabuf0 (ops1 ++ SaAdd m :: ops2)) =
  snd (sa_run c sabuf0 ops1) ++ [] :: snd (sa_run c (fst (sa_run c sabuf0 ops1)) ops2).
Proof. exact (@sa_late F NF SO c m ops1 ops2). Qed.
Print Assumptions C65_late_ignored.

(** packets are at least the window shift apart, the first one from the first measurement *)
Theorem C65_spacing {F : Type} {NF : Num F} {SO : Sorter} (c : sacfg) (m : stamped (radio F)) ops :
  (0 <= sc_shift c)%Z -> (0 <= st_ts m)%Z -> sa_timed ops ->
  let ts := sa_hand_times (-1) (SaAdd m :: ops) (snd (sa_run c sabuf0 (SaAdd m :: ops))) in
  Sorted (fun x y => (sc_shift c <= y - x)%Z) ts /\ (forall x, In x ts -> (st_ts m + sc_shift c <= x)%Z).
Proof. exact (@sa_spacing F NF SO c m ops). Qed.
Print Assumptions C65_spacing.

Definition sam {F} {NF : Num F} (id : string) (r ts : Z) : stamped (radio F) := mkSt (ex_radio id r) ts.
Definition ex_sac : sacfg := mkSacfg 1000 2000.
Definition ex_sap : sapcfg := mkSapcfg ex_sac true true.
(** the default constructor arguments *)
Example C65_default_config : sa_config (fofZ 3 : SF) (fofZ 2) = Ok ex_sac.
Proof. vm_compute. reflexivity. Qed.
Definition ex_ops : list (saop SF) :=
  [SaAdd (sam "a" (-50) 0); SaExtract; SaAdd (sam "b" (-50) 1500); SaExtract; SaAdd (sam "a" (-60) 2000); SaExtract;
   SaAdd (sam "b" (-70) 4000); SaExtract; SaAdd (sam "c" (-40) 6000); SaExtract].
Example C65_example : sa_timed ex_ops /\
  map (map (fun o => (r_id (st_data o), r_rssi (st_data o)))) (snd (sa_run ex_sac sabuf0 ex_ops)) =
  [[]; []; []; []; []; [("a", fofZ (-60)); ("b", fofZ (-50))]; []; [("a", fofZ (-60)); ("b", fofZ (-60))]; []; [("b", fofZ (-70)); ("c", fofZ (-40))]] /\
  sa_hand_times (-1) ex_ops (snd (sa_run ex_sac sabuf0 ex_ops)) = [2000; 4000; 6000]%Z.
Proof. split; [unfold sa_timed; cbn; repeat (constructor; [cbn; lia|]); constructor|]. split; vm_compute; reflexivity. Qed.
Example C65_example_late : sa_added (firstn 6 ex_ops) <> [] /\ (1900 <= sb_last (fst (sa_run ex_sac sabuf0 (firstn 6 ex_ops))))%Z.
Proof. split; [discriminate|vm_compute; discriminate]. Qed.

(** measurements of one scan share a time: the one that completes a window is
    handed over at once, the others of its scan are dropped although they are
    the strongest *)
Theorem C65_same_scan_refuted : exists (ms : list (stamped (radio SF))) m pk,
  StronglySorted (fun a b => (st_ts a <= st_ts b)%Z) ms /\ Forall (sa_accepts ex_sap) ms /\ In m ms /\
  Forall (fun q => q = m \/ (r_rssi (st_data q) <! r_rssi (st_data m)) = true) ms /\
  sa_packets ex_sap ms = Ok pk /\ List.length pk = 3%nat /\
  Forall (fun p => ~ In (r_id (st_data m)) (map (fun o => r_id (st_data o)) p)) pk.
Proof.
  exists [sam "a" (-70) 1000; sam "a" (-70) 3000; sam "b" (-40) 3000; sam "a" (-70) 5000; sam "a" (-70) 7000],
    (sam "b" (-40) 3000). eexists.
  split; [repeat constructor; cbn; lia|].
  split; [repeat (constructor; [split; [right; split; reflexivity|split; vm_compute; reflexivity]|]); constructor|].
  split; [cbn; tauto|]. split; [repeat (constructor; [first [right; vm_compute; reflexivity|left; reflexivity]|]); constructor|].
  split; [vm_compute; reflexivity|]. split; [reflexivity|].
  repeat (constructor; [cbn; intros [H|[]]; discriminate|]). constructor.
Qed.
Print Assumptions C65_same_scan_refuted.

(** ** C66: packets *)
(** the strongest five, strongest first *)
Theorem C66_strongest {F : Type} {NF : Num F} {SO : Sorter} (c : sapcfg) (p p' : sapre F) out :
  sa_extract_radio c p = Ok (p', out) ->
  let avg := snd (sa_extract (sp_buf c) (sr_buf p)) in
  sr_buf p' = fst (sa_extract (sp_buf c) (sr_buf p)) /\
  exists dropped, Permutation avg (out ++ dropped) /\ List.length out = Nat.min 5 (List.length avg) /\
  StronglySorted (fun a b => (r_rssi (st_data a) <! r_rssi (st_data b)) = false) out /\
  (forall a b, In a out -> In b dropped -> (r_rssi (st_data a) <! r_rssi (st_data b)) = false).
Proof. exact (@sa_closest F NF SO c p p' out). Qed.
Print Assumptions C66_strongest.

(** any stream of measurements, valid or not, in any order: every packet is
    non-empty, has at most five distinct transmitters in falling order, each
    taken from an accepted measurement, with a level strictly between -100 and 0 *)
Theorem C66_packets {SO : Sorter} (c : sapcfg) (ms : list (stamped (radio RX))) :
  exists pk, sa_packets c ms = Ok pk /\ Forall (packet_ok c ms) pk.
Proof. exact (@sa_packets_real SO c ms). Qed.
Print Assumptions C66_packets.

Example C66_example : exists pk, sa_packets ex_sap
    [sam "z" (-30) 0; sam "a" (-81) 100; sam "b" (-82) 200; sam "c" (-83) 300; sam "d" (-84) 400; sam "e" (-85) 500; sam "f" (-45) 600;
     sam "g" (-100) 700; sam "h" 0 800; (sam "i" (-70) 2000 : stamped (radio SF))] = Ok [pk] /\
  map (fun o => r_id (st_data o)) pk = ["f"; "i"; "a"; "b"; "c"].
Proof. eexists. split; [vm_compute; reflexivity|reflexivity]. Qed.

(** ** C67: nearest transmitter *)
Theorem C67_nearest {F : Type} {NF : Num F} txs (e : saest F) ms : sa_reach txs e -> strict_weak_on srssi_lt ms ->
  (exists m p, In m ms /\ registered txs (r_id (st_data m)) p) ->
  exists near x y pre post lst,
    In near ms /\ registered txs (r_id (st_data near)) (x, y) /\
    (forall m p, In m ms -> registered txs (r_id (st_data m)) p -> (r_rssi (st_data near) <! r_rssi (st_data m)) = false) /\
    ms = pre ++ lst :: post /\ (exists p, registered txs (r_id (st_data lst)) p) /\
    (forall m p, In m post -> ~ registered txs (r_id (st_data m)) p) /\
    let est := mkSapos x y (fsqrt (fexp ((fofZ (-82) -! r_rssi (st_data near)) /! fofZ 3)) +! f1) false (st_ts lst) in
    sa_calculate e ms = (mkSaest (fst (sa_smooth (es_sm e) est)) (es_tx e), snd (sa_smooth (es_sm e) est)).
Proof. exact (@sa_nearest F NF txs e ms). Qed.
Print Assumptions C67_nearest.

(** no position exactly when no measured transmitter is registered *)
Theorem C67_empty_iff {F : Type} {NF : Num F} (txs : list (string * (F * F))) pks ms :
  (forall q m, In q (ms :: pks) -> In m q -> (0 <= st_ts m)%Z) ->
  let e := fold_left (fun e q => fst (sa_calculate e q)) pks (saest0 txs) in
  sa_empty (snd (sa_calculate e ms)) = true <-> forall m p, In m ms -> ~ registered txs (r_id (st_data m)) p.
Proof. exact (@sa_empty_iff F NF txs pks ms). Qed.
Print Assumptions C67_empty_iff.

Theorem C67_precision (v : R) : exists d, (fsqrt (fexp ((fofZ (-82) -! Some v) /! fofZ 3)) +! f1 : RX) = Some d /\ (1 < d)%R /\
  d = (sqrt (exp ((-82 - v) / 3)) + 1)%R.
Proof. exact (sa_precision v). Qed.
Print Assumptions C67_precision.

Definition ex_txs : list (string * (SF * SF)) := [("b", (fofZ 7, fofZ 7)); ("a", (f0, f0)); ("b", (fofZ 10, f0)); ("c", (fofZ 100, f0))].
Definition ex_ms67 : list (stamped (radio SF)) := [sam "x" (-20) 1000; sam "b" (-50) 1000; sam "a" (-60) 1200; sam "y" (-90) 1300].
Example C67_example : sa_reach ex_txs (saest0 ex_txs) /\ strict_weak_on srssi_lt ex_ms67 /\
  registered ex_txs "b" (fofZ 10, f0) /\
  (let p := snd (sa_calculate (saest0 ex_txs) ex_ms67) in sa_x p = fofZ 10 /\ sa_y p = f0 /\ sa_ts p = 1200%Z /\ sa_empty p = false).
Proof.
  split; [constructor|]. split; [apply swo_b_spec; vm_compute; reflexivity|]. split.
  - exists [("b", (fofZ 7, fofZ 7)); ("a", (f0, f0))], [("c", (fofZ 100, f0))]. split; [reflexivity|]. cbn. intros [H|[]]; discriminate.
  - vm_compute. auto.
Qed.

(** the time of an estimate is that of the weakest registered measurement, so a
    newer packet with another nearest transmitter can be taken for an old one:
    the old position is reported again *)
Theorem C67_stale_refuted : exists (ms : list (stamped (radio SF))) pk1 pk2 p,
  StronglySorted (fun a b => (st_ts a < st_ts b)%Z) ms /\ Forall (sa_accepts ex_sap) ms /\
  sa_packets ex_sap ms = Ok [pk1; pk2] /\
  sa_track (saest0 ex_txs) [pk1; pk2] = [p; p] /\ sa_x p = fofZ 10 /\
  (exists near, hd_error pk2 = Some near /\ registered ex_txs (r_id (st_data near)) (fofZ 100, f0)).
Proof.
  exists [sam "a" (-60) 0; sam "b" (-50) 1500; sam "a" (-60) 2000; sam "c" (-40) 4000]. do 3 eexists.
  split; [repeat constructor; cbn; lia|].
  split; [repeat (constructor; [split; [right; split; reflexivity|split; vm_compute; reflexivity]|]); constructor|].
  split; [vm_compute; reflexivity|]. split; [vm_compute; reflexivity|]. split; [vm_compute; reflexivity|].
  eexists. split; [reflexivity|]. exists [("b", (fofZ 7, fofZ 7)); ("a", (f0, f0)); ("b", (fofZ 10, f0))], []. split; [reflexivity|intros []].
Qed.
Print Assumptions C67_stale_refuted.

(** ** C68: stand-alone smoother *)
(** one call agrees with the smoother of the navigation core, options off *)
Theorem C68_refines {F} {NF : Num F} (s : settings F) al (a : absm F) (p : position F) : plain s ->
  let '(a', r) := ab_smooth s al a p in
  let '(m', q) := sa_smooth (sa_of s a) (sa_proj p) in
  ((p_ts (ab_pos a) < p_ts p)%Z -> fisfinite (sa_x q) && fisfinite (sa_y q) = true) ->
  m' = sa_of s a' /\ q = sa_proj r.
Proof. exact (@sa_refines F NF s al a p). Qed.
Print Assumptions C68_refines.

(** a call that is not newer is answered with the stored position *)
Theorem C68_stale {F} {NF : Num F} (m : sasm F) p : (sa_ts p <= sa_ts (sm_pos m))%Z -> sa_smooth m p = (m, sm_pos m).
Proof. exact (@sa_stale F NF m p). Qed.
Print Assumptions C68_stale.

(** from the first call on: uniform motion is tracked with a geometrically vanishing error *)
Theorem C68_converges w (p0 : sapos RX) ps x0 y0 cx cy dx dy H : (0 < H <= 10000)%Z -> (0 <= sa_ts p0)%Z -> sa_at p0 x0 y0 ->
  sa_motion (sa_ts p0) H cx cy dx dy ps ->
  exists rs, sa_smooth_all (sasm0 (Some w : RX)) (p0 :: ps) = p0 :: rs /\
  let g := gain_of w in
  forall k r, nth_error rs k = Some r -> exists x y, sa_at r x y /\
    ((x - (cx + INR (S k) * dx)) * (x - (cx + INR (S k) * dx)) <= error_bound g (x0 - cx) (- dx) (S k))%R /\
    ((y - (cy + INR (S k) * dy)) * (y - (cy + INR (S k) * dy)) <= error_bound g (y0 - cy) (- dy) (S k))%R.
Proof. exact (@sa_converges w p0 ps x0 y0 cx cy dx dy H). Qed.
Print Assumptions C68_converges.

(** the smoother of the estimator starts from smoothing 0.9, whatever the
    transmitters, and keeps it *)
Theorem C68_gain {F : Type} {NF : Num F} txs (e : saest F) : sa_reach txs e ->
  sm_alpha (es_sm e) = sm_alpha (sasm0 (lit 9 10)).
Proof.
  induction 1 as [|e ms H IH]; [reflexivity|]. unfold sa_calculate.
  destruct (sa_registered e ms) as [|m t]; [exact IH|]. destruct (alookup _ _) as [[x y]|]; [|exact IH].
  unfold sa_smooth. destruct (_ <? _)%Z; [|exact IH]. destruct (_ || _); exact IH.
Qed.
Print Assumptions C68_gain.
Theorem C68_gain_real txs (e : saest RX) : sa_reach txs e -> sm_alpha (es_sm e) = Some (18 / 100)%R.
Proof.
  intros H. rewrite (C68_gain txs e H), rx_lit, sa_alpha by lra. f_equal. unfold gain_of.
  rewrite Rmax_right, Rmin_right by (try rewrite Rmax_right; lra). lra.
Qed.
Print Assumptions C68_gain_real.

Definition ex_sapos {F} {NF : Num F} (x : F) (t : Z) : sapos F := mkSapos x f0 f1 false t.
Example C68_example : sa_motion 1000 500 0 0 2 0 [ex_sapos (Some 2%R : RX) 1500; ex_sapos (Some 4%R : RX) 2000].
Proof.
  intros [|[|k]] p Hp; [| |destruct k; discriminate]; injection Hp as <-; (split; [reflexivity|]); split; unfold ex_sapos; cbn [sa_x sa_y];
    rewrite ?rx_f0; f_equal; cbn; lra.
Qed.
(** plain settings exist, and the agreement is not about undefined values *)
Example C68_example_refines : exists s : settings SF, plain s /\ s_smoothing s = lit 1 2 /\
  let m := sa_of s (mkAB true f0 f0 (mkPos f0 f0 "L" f1 1000 false INDOOR f0)) in
  let q := snd (sa_smooth m (ex_sapos (fofZ 10) 2000)) in fisfinite (sa_x q) && fisfinite (sa_y q) = true /\ sa_x q = fofZ 5.
Proof. exists (ex_nospeed (ex_zones false)). split; [repeat split|]. split; [reflexivity|]. vm_compute. auto. Qed.

(** there is no speed limit here: two estimates 1 ms apart throw the next
    result more than 100 m beyond all transmitters *)
Theorem C68_irregular_refuted : exists (ps : list (sapos SF)) r,
  Forall (fun p => (f0 <=! sa_x p) && (sa_x p <=! fofZ 10) = true) ps /\ StronglySorted (fun a b => (sa_ts a < sa_ts b)%Z) ps /\
  In r (sa_smooth_all (sasm0 (lit 9 10)) ps) /\ (fofZ 110 <! sa_x r) = true.
Proof.
  exists [ex_sapos f0 1000; ex_sapos (fofZ 10) 1001; ex_sapos (fofZ 10) 3001]. eexists.
  split; [repeat constructor|]. split; [repeat constructor; cbn; lia|].
  split; [right; right; left; vm_compute; reflexivity|vm_compute; reflexivity].
Qed.
Print Assumptions C68_irregular_refuted.
