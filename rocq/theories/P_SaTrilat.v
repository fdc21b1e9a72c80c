(** C60-C63: stand-alone trilateration. *)
From Coq Require Import Reals Lra Lia Permutation.
From Verif Require Import Lib NumOrd NumReal NumFloat LibR SortInst SaTrilat Spec_SaTrilat Pf_SaTrilat Ex.
Local Open Scope string_scope.
Local Open Scope list_scope.
#[local] Existing Instance nf.
#[local] Existing Instance isorter.

(** ** C60: error codes and duplicates *)
Theorem C60_codes {F} {NF : Num F} {SO : Sorter} (s s' : trilat F) e : calculate s = Ok (s', e) ->
  (e = 28%Z <-> negatives (tl_meas s)) /\
  (e = 4%Z <-> ~ negatives (tl_meas s) /\ ((distinct (tl_meas s) < 3)%nat \/ nothing_known (tl_map s) (tl_meas s))) /\
  (e = 0%Z <-> ~ negatives (tl_meas s) /\ (3 <= distinct (tl_meas s))%nat /\ ~ nothing_known (tl_map s) (tl_meas s)) /\
  (e <> 0%Z -> tl_x s' = tl_x s /\ tl_y s' = tl_y s).
Proof. exact (@codes F NF SO s s' e). Qed.
Print Assumptions C60_codes.

(** a result is returned whenever all distances are numbers *)
Theorem C60_total {SO : Sorter} (s : trilat RX) : Forall (fun m => defined (bm_dist m)) (tl_meas s) ->
  exists r, calculate s = Ok r.
Proof. exact (@calculate_defined SO s). Qed.
Print Assumptions C60_total.

Theorem C60_kept {F} {NF : Num F} {SO : Sorter} (s s' : trilat F) : calculate s = Ok (s', 0%Z) ->
  tl_map s' = tl_map s /\ NoDup (ids (tl_meas s')) /\
  (forall id, In id (ids (tl_meas s')) <-> In id (ids (tl_meas s)) /\ on_map (tl_map s) id) /\
  forall m, In m (tl_meas s') ->
    (exists m0, In m0 (tl_meas s) /\ bm_id m0 = bm_id m /\ bm_dist m0 = bm_dist m) /\
    exists l, Permutation (from_id (bm_id m) (tl_meas s)) l /\
      bm_rssi m = fsum (@bm_rssi F) l /! fofZ (Z.of_nat (List.length l)).
Proof. exact (@kept F NF SO s s'). Qed.
Print Assumptions C60_kept.

Theorem C60_mean {SO : Sorter} (s s' : trilat RX) m : Forall (fun m => defined (bm_rssi m)) (tl_meas s) ->
  calculate s = Ok (s', 0%Z) -> In m (tl_meas s') ->
  bm_rssi m = Some (mean (map (fun m0 => rval (bm_rssi m0)) (from_id (bm_id m) (tl_meas s)))).
Proof. exact (@kept_mean SO s s' m). Qed.
Print Assumptions C60_mean.

Definition ex_bs {F} {NF : Num F} : list (beacon F) :=
  [mkBeacon "a" (fofZ 3) (fofZ 4); mkBeacon "b" (fofZ (-3)) (fofZ 4); mkBeacon "c" (fofZ 5) (fofZ 0)].
Definition ex_m {F} {NF : Num F} id r d : bmeas F := mkBm id (fofZ r) (fofZ d).
(** five measurements, one transmitter twice, one unknown *)
Definition ex_ms {F} {NF : Num F} : list (bmeas F) :=
  [ex_m "c" (-50) 4; ex_m "x" (-10) 1; ex_m "a" (-60) 1; ex_m "b" (-70) 2; ex_m "a" (-80) 3].

(** the distances of duplicate measurements are not averaged *)
Theorem C60_distance_mean_refuted : exists (s s' : trilat SF) m,
  calculate s = Ok (s', 0%Z) /\ In m (tl_meas s') /\
  bm_dist m <> fsum (@bm_dist SF) (from_id (bm_id m) (tl_meas s)) /! fofZ (Z.of_nat (List.length (from_id (bm_id m) (tl_meas s)))).
Proof.
  exists (mkTl ex_bs ex_ms f0 f0). eexists. exists (ex_m "a" (-70) 3). split; [vm_compute; reflexivity|].
  split; [right; left; vm_compute; reflexivity|]. vm_compute. discriminate.
Qed.
Print Assumptions C60_distance_mean_refuted.

Example C60_example :
  (exists s' : trilat SF, calculate (mkTl ex_bs ex_ms f0 f0) = Ok (s', 0%Z) /\ map (@bm_id SF) (tl_meas s') = ["b"; "a"; "c"] /\
    nth_error (tl_meas s') 1 = Some (ex_m "a" (-70) 3)) /\
  (exists s' : trilat SF, calculate (mkTl ex_bs (ex_m "z" (-1) (-1) :: ex_ms) f0 f0) = Ok (s', 28%Z)) /\
  (exists s' : trilat SF, calculate (mkTl ex_bs (firstn 2 ex_ms) f0 f0) = Ok (s', 4%Z)) /\
  (exists s' : trilat SF, calculate (mkTl [] ex_ms f0 f0) = Ok (s', 4%Z)).
Proof.
  repeat split; eexists; [|vm_compute; reflexivity..].
  split; [vm_compute; reflexivity|]. split; [vm_compute; reflexivity|vm_compute; reflexivity].
Qed.
(** the real instance meets the hypotheses: all distances defined, code 0 *)
Lemma ex_ms_good : Forall good_meas (ex_ms : list (bmeas RX)).
Proof. repeat constructor; try (eexists; reflexivity); eexists; (split; [reflexivity|]); cbn; lra. Qed.
Lemma ex_bs_good : Forall good_beacon (ex_bs : list (beacon RX)).
Proof. repeat constructor; eexists; reflexivity. Qed.
Lemma ex_success : exists s' : trilat RX, calculate (mkTl ex_bs ex_ms f0 f0) = Ok (s', 0%Z).
Proof.
  destruct (@C60_total isorter (mkTl ex_bs ex_ms f0 f0)) as ((s' & e) & E).
  { eapply Forall_impl; [|exact ex_ms_good]. intros m (_ & d & Ed & _). exists d. exact Ed. }
  exists s'. rewrite E. f_equal. f_equal. apply (proj2 (proj1 (proj2 (proj2 (C60_codes _ _ _ E))))).
  cbn [tl_meas tl_map]. split; [|split].
  - intros (m & Hm & Em). pose proof ex_ms_good as G. rewrite Forall_forall in G. destruct (G m Hm) as (_ & d & Ed & Hd).
    rewrite Ed, rx_f0, rx_ltb, Rltb_true in Em. lra.
  - cbv. lia.
  - intros N. apply (N "a"); [cbn; tauto|]. exists (mkBeacon "a" (fofZ 3) (fofZ 4)). split; [left|]; reflexivity.
Qed.
Example C60_real_example : exists s' : trilat RX, calculate (mkTl ex_bs ex_ms f0 f0) = Ok (s', 0%Z) /\
  exists m, In m (tl_meas s') /\ bm_id m = "a" /\ bm_rssi m = Some (-70)%R.
Proof.
  destruct ex_success as (s' & E). exists s'. split; [exact E|].
  destruct (C60_kept _ _ E) as (_ & _ & K & _).
  assert (I : In "a" (ids (tl_meas s'))).
  { apply K. split; [cbn; tauto|]. exists (mkBeacon "a" (fofZ 3) (fofZ 4)). split; [left|]; reflexivity. }
  apply in_map_iff in I as (m & Em & Hm). exists m. split; [exact Hm|]. split; [exact Em|].
  rewrite (C60_mean _ s' m) with (2 := E) (3 := Hm).
  - rewrite Em. f_equal. change (mean [IZR (-60); IZR (-80)] = IZR (-70)). unfold mean. rewrite !rsum_cons, rsum_nil. cbn [List.length INR]. lra.
  - eapply Forall_impl; [|exact ex_ms_good]. intros m0 H. apply H.
Qed.

(** ** C61: position *)
Theorem C61_position {SO : Sorter} (s s' : trilat RX) x0 y0 : tl_x s = Some x0 -> tl_y s = Some y0 ->
  Forall good_meas (tl_meas s) -> Forall good_beacon (tl_map s) -> calculate s = Ok (s', 0%Z) ->
  exists k, takes_part (tl_map s) (tl_meas s) k /\ tl_meas s' = map fst k /\ tl_map s' = tl_map s /\
    tl_x s' = Some (x0 + inv_weighted (map dx k))%R /\ tl_y s' = Some (y0 + inv_weighted (map dy k))%R.
Proof. exact (@calculate_position SO s s' x0 y0). Qed.
Print Assumptions C61_position.

(** the first report lies in the box of the measured beacons *)
Theorem C61_hull {SO : Sorter} (s s' : trilat RX) lo hi : tl_x s = f0 -> tl_y s = f0 ->
  Forall good_meas (tl_meas s) -> Forall good_beacon (tl_map s) -> calculate s = Ok (s', 0%Z) ->
  exists x y, tl_x s' = Some x /\ tl_y s' = Some y /\
   ((forall b, In b (tl_map s) -> In (bk_id b) (ids (tl_meas s)) -> lo <= rval (bk_x b) <= hi)%R -> (lo <= x <= hi)%R) /\
   ((forall b, In b (tl_map s) -> In (bk_id b) (ids (tl_meas s)) -> lo <= rval (bk_y b) <= hi)%R -> (lo <= y <= hi)%R).
Proof. exact (@fresh_hull SO s s' lo hi). Qed.
Print Assumptions C61_hull.

(** neither the order of the measurements nor any RSSI matters *)
Theorem C61_order {SO : Sorter} bs ms ms' x0 y0 s s' : Forall good_beacon bs -> Forall good_meas ms -> Forall good_meas ms' ->
  NoDup (ids ms) ->
  (forall id d, (exists m, In m ms /\ bm_id m = id /\ bm_dist m = d) <-> (exists m, In m ms' /\ bm_id m = id /\ bm_dist m = d)) ->
  calculate (mkTl bs ms (Some x0 : RX) (Some y0)) = Ok (s, 0%Z) ->
  calculate (mkTl bs ms' (Some x0 : RX) (Some y0)) = Ok (s', 0%Z) -> tl_x s = tl_x s' /\ tl_y s = tl_y s'.
Proof. exact (@same_reading SO bs ms ms' x0 y0 s s'). Qed.
Print Assumptions C61_order.

(** exact distances do not give the true position: from the origin, with three
    beacons five metres away, the report is (5/3, 8/3) *)
Definition ex_exact {F} {NF : Num F} : list (bmeas F) := [ex_m "a" (-60) 5; ex_m "b" (-60) 5; ex_m "c" (-60) 5].
Theorem C61_exact_refuted : exists bs ms (s' : trilat RX) k, calculate (mkTl bs ms f0 f0) = Ok (s', 0%Z) /\
  takes_part bs ms k /\ Forall (exact_from 0 0) k /\ tl_x s' <> (Some 0%R : RX).
Proof.
  set (s := mkTl (ex_bs : list (beacon RX)) ex_exact f0 f0).
  assert (G : Forall good_meas (ex_exact : list (bmeas RX))).
  { repeat constructor; try (eexists; reflexivity); eexists; (split; [reflexivity|]); cbn; lra. }
  destruct (@C60_total isorter s) as ((s' & e) & E).
  { eapply Forall_impl; [|exact G]. intros m (_ & d & Ed & _). exists d. exact Ed. }
  assert (E0 : e = 0%Z).
  { apply (proj2 (proj1 (proj2 (proj2 (C60_codes _ _ _ E))))). cbn [tl_meas tl_map s]. split; [|split].
    - intros (m & Hm & Em). rewrite Forall_forall in G. destruct (G m Hm) as (_ & d & Ed & Hd). rewrite Ed, rx_f0, rx_ltb, Rltb_true in Em. lra.
    - cbv. lia.
    - intros N. apply (N "a"); [cbn; tauto|]. exists (mkBeacon "a" (fofZ 3) (fofZ 4)). split; [left|]; reflexivity. }
  subst e. destruct (C61_position s s' 0 0 eq_refl eq_refl G ex_bs_good E) as (k & T & _ & _ & Ex & _).
  exists ex_bs, ex_exact, s', k. split; [exact E|]. split; [exact T|].
  assert (D5 : Forall (fun mb => kd mb = 5%R /\ exact_from 0 0 mb) k).
  { destruct T as (_ & _ & _ & T). eapply Forall_impl; [|exact T]. intros mb (F1 & m0 & M1 & M2 & M3).
    apply first_in_map in F1 as (F1 & _). unfold exact_from, kd, kx, ky, dist2. rewrite <- M3.
    assert (D : rval (bm_dist m0) = 5%R) by (cbn in M1; destruct M1 as [<-|[<-|[<-|[]]]]; reflexivity). rewrite D. split; [reflexivity|].
    cbn in F1. destruct F1 as [<-|[<-|[<-|[]]]]; cbn; lra. }
  split; [eapply Forall_impl; [|exact D5]; intros mb H; apply H|].
  rewrite Ex. intros Z. injection Z as Z. rewrite Rplus_0_l in Z.
  (* the three beacons all take part *)
  destruct T as (_ & T2 & T3 & T4).
  assert (P : Permutation (map kx k) [3; -3; 5]%R).
  { assert (Pi : Permutation (ids (map fst k)) ["a"; "b"; "c"]).
    { apply NoDup_Permutation; [exact T2|repeat constructor; cbn; intuition discriminate|].
      intros id. rewrite T3. cbn [ids ex_exact ex_m map bm_id]. split; [intros (H & _); exact H|].
      intros H. split; [exact H|]. cbn in H. destruct H as [<-|[<-|[<-|[]]]].
      - exists (mkBeacon "a" (fofZ 3) (fofZ 4)). split; [left|]; reflexivity.
      - exists (mkBeacon "b" (fofZ (-3)) (fofZ 4)). split; [right; left|]; reflexivity.
      - exists (mkBeacon "c" (fofZ 5) (fofZ 0)). split; [right; right; left|]; reflexivity. }
    set (g := fun id => rval (match find_beacon (ex_bs : list (beacon RX)) id with Some b => bk_x b | None => None end)).
    replace (map kx k) with (map g (ids (map fst k))).
    - apply (Permutation_map g) in Pi. etransitivity; [exact Pi|]. cbn. reflexivity.
    - unfold ids. rewrite !map_map. apply map_ext_in. intros mb Hmb. rewrite Forall_forall in T4. destruct (T4 mb Hmb) as (F1 & _).
      apply find_beacon_some in F1. unfold g. cbn [tl_map s] in F1. rewrite F1. reflexivity. }
  assert (Zs : inv_weighted (map dx k) = (5 / 3)%R).
  { rewrite Forall_forall in D5. unfold inv_weighted. rewrite !map_map.
    replace (map (fun x => (snd (dx x) / fst (dx x))%R) k) with (map (fun v => v / 5)%R (map kx k))
      by (rewrite map_map; apply map_ext_in; intros mb Hmb; destruct (D5 mb Hmb) as (D & _); unfold dx, kx; cbn [fst snd]; unfold kd in D; rewrite D; reflexivity).
    replace (map (fun x => (1 / fst (dx x))%R) k) with (map (fun _ => 1 / 5)%R (map kx k))
      by (rewrite map_map; apply map_ext_in; intros mb Hmb; destruct (D5 mb Hmb) as (D & _); unfold dx; cbn [fst]; unfold kd in D; rewrite D; reflexivity).
    rewrite (rsum_perm (Permutation_map (fun v => v / 5)%R P)), (rsum_perm (Permutation_map (fun _ => 1 / 5)%R P)).
    cbn [map]. rewrite !rsum_cons, !rsum_nil. lra. }
  lra.
Qed.
Print Assumptions C61_exact_refuted.
Definition ex_s : trilat RX := mkTl ex_bs ex_ms f0 f0.
Example C61_example : exists s' : trilat RX, calculate (mkTl ex_bs ex_ms f0 f0) = Ok (s', 0%Z) /\
  exists x y, tl_x s' = Some x /\ tl_y s' = Some y /\ (-3 <= x <= 5)%R /\ (0 <= y <= 4)%R.
Proof.
  destruct ex_success as (s' & E). exists s'. split; [exact E|].
  destruct (@C61_hull isorter ex_s s' (-3) 5 eq_refl eq_refl ex_ms_good ex_bs_good E) as (x & y & Ex & Ey & Hx & _).
  destruct (@C61_hull isorter ex_s s' 0 4 eq_refl eq_refl ex_ms_good ex_bs_good E) as (x2 & y2 & Ex2 & Ey2 & _ & Hy).
  exists x, y. split; [exact Ex|]. split; [exact Ey|]. rewrite Ey in Ey2. injection Ey2 as <-. split; [apply Hx|apply Hy];
    cbn [tl_map ex_bs]; intros b [<-|[<-|[<-|[]]]] _; cbn; lra.
Qed.

(** ** C62: the stored coordinates accumulate *)
Theorem C62_accumulates {SO : Sorter} bs mss ms0 x0 y0 : Forall good_beacon bs -> Forall (Forall good_meas) mss ->
  exists s xs, session (mkTl bs ms0 (Some x0) (Some y0)) mss = Ok s /\
    Forall2 (fun ms xy => fresh_report bs ms (fst xy) (snd xy)) mss xs /\
    tl_x s = Some (x0 + rsum (map fst xs))%R /\ tl_y s = Some (y0 + rsum (map snd xs))%R.
Proof. intros Hb Hm. exact (@session_sum SO bs mss Hb Hm ms0 x0 y0). Qed.
Print Assumptions C62_accumulates.
(** the same measurements reported twice give another position *)
Theorem C62_repeat_refuted : exists bs ms (s1 s2 : trilat SF),
  calculate (mkTl bs ms f0 f0) = Ok (s1, 0%Z) /\ calculate (tl_update s1 ms) = Ok (s2, 0%Z) /\ tl_x s1 <> tl_x s2.
Proof. exists ex_bs, ex_exact. do 2 eexists. split; [vm_compute; reflexivity|]. split; [vm_compute; reflexivity|]. vm_compute. discriminate. Qed.
Print Assumptions C62_repeat_refuted.
(** a second calculation without new measurements can fail *)
Theorem C62_again_refuted : exists bs ms (s1 s2 : trilat SF),
  calculate (mkTl bs ms f0 f0) = Ok (s1, 0%Z) /\ calculate s1 = Ok (s2, 4%Z).
Proof. exists (firstn 2 ex_bs), ex_ms. do 2 eexists. split; [vm_compute; reflexivity|vm_compute; reflexivity]. Qed.
Print Assumptions C62_again_refuted.
(** one zero distance: the coordinates are not numbers, and stay so after good measurements *)
Theorem C62_nan_refuted : exists bs ms ms' (s1 s2 : trilat SF),
  calculate (mkTl bs ms f0 f0) = Ok (s1, 0%Z) /\ fisnan (tl_x s1) = true /\
  calculate (tl_update s1 ms') = Ok (s2, 0%Z) /\ fisnan (tl_x s2) = true.
Proof.
  exists ex_bs, (ex_m "a" (-60) 0 :: tl ex_exact), ex_exact. do 2 eexists.
  split; [vm_compute; reflexivity|]. split; [vm_compute; reflexivity|]. split; [vm_compute; reflexivity|vm_compute; reflexivity].
Qed.
Print Assumptions C62_nan_refuted.
Example C62_example : exists s x y, session (mkTl ex_bs [] (Some 0%R) (Some 0%R)) [ex_ms; ex_ms] = Ok s /\
  fresh_report ex_bs ex_ms x y /\ tl_x s = Some (2 * x)%R /\ tl_y s = Some (2 * y)%R.
Proof.
  destruct (C62_accumulates ex_bs [ex_ms; ex_ms] [] 0 0 ex_bs_good) as (s & xs & E & F2 & Ex & Ey).
  { repeat constructor; try (eexists; reflexivity); eexists; (split; [reflexivity|]); cbn; lra. }
  inversion F2 as [|? [x y] ? ? R1 F2']; subst. inversion F2' as [|? [x' y'] ? ? R2 F3]; subst. inversion F3; subst.
  cbn [fst snd] in *. exists s, x, y. split; [exact E|]. split; [exact R1|].
  destruct R1 as (s1 & e1 & C1 & A1 & B1), R2 as (s2 & e2 & C2 & A2 & B2). rewrite C1 in C2. injection C2 as <- <-.
  rewrite A1 in A2. rewrite B1 in B2. injection A2 as <-. injection B2 as <-.
  rewrite Ex, Ey. cbn [map fst snd]. rewrite !rsum_cons, !rsum_nil. split; f_equal; ring.
Qed.

(** ** C63: the least-squares solver (compiled but switched off) *)
Theorem C63_exact k x y : Forall real_pair k -> Forall (exact_from x y) k -> not_collinear k ->
  least_squares k = Ok ((Some x : RX), (Some y : RX)).
Proof. exact (@least_squares_exact k x y). Qed.
Print Assumptions C63_exact.
Theorem C63_minimum p t : Forall real_pair (p :: t) -> not_collinear (p :: t) ->
  exists x y, least_squares (p :: t) = Ok ((Some x : RX), (Some y : RX)) /\
    forall x' y', (x', y') <> (x, y) -> (mismatch p t x y < mismatch p t x' y')%R.
Proof. exact (@least_squares_min p t). Qed.
Print Assumptions C63_minimum.
Theorem C63_singular p q t : Forall real_pair (p :: q :: t) -> ~ not_collinear (p :: q :: t) ->
  least_squares (p :: q :: t) = Ok ((None : RX), (None : RX)).
Proof. exact (@least_squares_singular p q t). Qed.
Print Assumptions C63_singular.
Definition ex_k : list (bmeas RX * beacon RX) := combine ex_exact ex_bs.
Example C63_example : Forall real_pair ex_k /\ Forall (exact_from 0 0) ex_k /\ not_collinear ex_k /\
  ~ not_collinear (firstn 2 ex_k).
Proof.
  split; [repeat constructor; eexists; reflexivity|]. split; [|split].
  - repeat constructor; unfold exact_from, kd, kx, ky, dist2; cbn; lra.
  - eexists _, _, _. split; [left; reflexivity|]. split; [right; left; reflexivity|]. split; [right; right; left; reflexivity|].
    unfold kx, ky; cbn. lra.
  - intros (a & b & c & Ha & Hb & Hc & D). cbn [firstn ex_k combine ex_exact ex_bs] in *.
    destruct Ha as [<-|[<-|[]]], Hb as [<-|[<-|[]]], Hc as [<-|[<-|[]]]; apply D; unfold kx, ky; cbn; lra.
Qed.
