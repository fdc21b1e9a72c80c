(** C48-C51: KNN weights and positions. *)
From Coq Require Import Reals Lra.
From Verif Require Import Lib NumReal NumFloat LibR SortInst Knn Estimators Spec_Knn Pf_Knn Pf_KnnEst Ex.
Local Open Scope string_scope.
Local Open Scope list_scope.
#[local] Existing Instance nf.
#[local] Existing Instance isorter.

(** ** C48: transmitter weights *)
(** distinct transmitters: the weights are the trusts divided by their sum;
    they are positive, add up to one, and no other transmitter has one *)
Theorem C48_distribution (ms : list (radio RX)) : ms <> [] -> Forall real_radio ms -> NoDup (map (@r_id RX) ms) ->
  (forall m, In m ms -> exists w, alookup (r_id m) (tx_weights ms) = Some (Some w : RX) /\ (0 < w)%R /\ (w = trust m / rsum (map trust ms))%R) /\
  (forall id, ~ In id (map (@r_id RX) ms) -> alookup id (tx_weights ms) = None) /\
  rsum (map (fun m => match alookup (r_id m) (tx_weights ms) with Some w => rval w | None => 0%R end) ms) = 1%R.
Proof.
  intros Hne Hr Hn.
  assert (L : forall m, In m ms -> alookup (r_id m) (tx_weights ms) = Some (Some (share ms (r_id m)) : RX)).
  { intros m Hm. rewrite tx_weights_lookup by exact Hr. destruct (in_dec _ _ _) as [i|n]; [reflexivity|]. exfalso. apply n, in_map, Hm. }
  repeat split.
  - intros m Hm. exists (share ms (r_id m)). split; [apply L, Hm|]. split; [apply share_pos, in_map, Hm|apply share_distinct; assumption].
  - intros id Hi. rewrite tx_weights_lookup by exact Hr. destruct (in_dec _ _ _) as [i|n]; [contradiction|reflexivity].
  - rewrite (map_ext_in _ (fun m => share ms (r_id m))); [apply shares_sum; assumption|]. intros m Hm. rewrite (L m Hm). reflexivity.
Qed.
Print Assumptions C48_distribution.

(** in general the last measurement of a transmitter counts, and the weights
    add up to one only without repetitions *)
Theorem C48_repeated (ms : list (radio RX)) : ms <> [] -> Forall real_radio ms ->
  (forall id, alookup id (tx_weights ms) = if in_dec string_dec id (map (@r_id RX) ms) then Some (Some (share ms id) : RX) else None) /\
  let S := rsum (map (share ms) (nodup string_dec (map (@r_id RX) ms))) in
  (S <= 1)%R /\ (NoDup (map (@r_id RX) ms) <-> S = 1%R).
Proof. intros Hne Hr. split; [intros id; apply tx_weights_lookup, Hr|apply shares_distinct_sum, Hne]. Qed.
Print Assumptions C48_repeated.

(** a stronger signal has a greater weight *)
Theorem C48_stronger (ms : list (radio RX)) a b wa wb : Forall real_radio ms -> NoDup (map (@r_id RX) ms) -> In a ms -> In b ms ->
  assumed_power a = assumed_power b -> alookup (r_id a) (tx_weights ms) = Some (Some wa : RX) -> alookup (r_id b) (tx_weights ms) = Some (Some wb : RX) ->
  ((rval (r_rssi a) < rval (r_rssi b))%R <-> (wa < wb)%R).
Proof.
  intros Hr Hn Ha Hb Hp. rewrite !tx_weights_lookup by exact Hr.
  destruct (in_dec _ _ _) as [i|n]; [|discriminate]. destruct (in_dec _ _ _) as [i'|n]; [|discriminate].
  intros E1 E2. injection E1 as <-. injection E2 as <-. rewrite !share_distinct by assumption.
  assert (T : (0 < rsum (map trust ms))%R) by (apply tx_total_pos; intros ->; destruct Ha).
  rewrite (trust_mono a b Hp). unfold Rdiv. split; intros H.
  - apply Rmult_lt_compat_r; [apply Rinv_0_lt_compat, T|exact H].
  - apply Rmult_lt_reg_r with (/ rsum (map trust ms))%R; [apply Rinv_0_lt_compat, T|exact H].
Qed.
Print Assumptions C48_stronger.

Definition C48_ms : list (radio RX) :=
  [mkRadio BEACON "a" (Some (-60)%R) (Some 0%R) (Some 1%R) (Some 0%R); mkRadio WIFI "b" (Some (-70)%R) (Some 0%R) (Some 1%R) (Some 0%R);
   mkRadio BEACON "c" (Some (-90)%R) (Some 4%R) (Some 1%R) (Some 0%R)].
Example C48_example : C48_ms <> [] /\ Forall real_radio C48_ms /\ NoDup (map (@r_id RX) C48_ms) /\
  assumed_power (nth 0 C48_ms (pl_m "x")) = assumed_power (nth 1 C48_ms (pl_m "x")) /\
  (exists w, alookup "a" (tx_weights C48_ms) = Some (Some w : RX) /\ (0 < w)%R).
Proof.
  assert (H1 : C48_ms <> []) by discriminate.
  assert (H2 : Forall real_radio C48_ms) by (repeat constructor; eexists; reflexivity).
  assert (H3 : NoDup (map (@r_id RX) C48_ms)).
  { cbn. repeat constructor; cbn; intuition discriminate. }
  split; [exact H1|]. split; [exact H2|]. split; [exact H3|]. split.
  - cbn. unfold assumed_power. cbn [r_power rval]. exact eq_refl.
  - destruct (C48_distribution C48_ms H1 H2 H3) as (K & _). destruct (K _ (or_introl eq_refl)) as (w & E & Hw & _). exists w. auto.
Qed.

(** ** C49: reference point weights *)
(** a reference point has a weight exactly when it has at least three
    fingerprints in common with the measurements; which one, in either mode *)
Theorem C49_weight (rm : rmap RX) (ms : list (radio RX)) (diff : bool) (p : string) : Forall real_radio ms -> real_map rm ->
  ((List.length (commons rm ms p) < 3)%nat /\ alookup p (rp_weights rm ms diff) = None) \/
  ((3 <= List.length (commons rm ms p))%nat /\
   exists w, alookup p (rp_weights rm ms diff) = Some (Some w : RX) /\ (0 < w)%R /\ w = point_weight_of diff (share ms) (commons rm ms p)).
Proof.
  intros Hm Hr. rewrite rp_weights_real by assumption. cbv zeta.
  destruct (Nat.ltb_spec (List.length (commons rm ms p)) 3) as [L|L]; [left; auto|right].
  split; [exact L|]. eexists. split; [reflexivity|]. split; [apply point_weight_pos, L|reflexivity].
Qed.
Print Assumptions C49_weight.

(** difference mode: a point whose fingerprints differ from the measurements
    by one constant is at least as heavy as any other point seen by the same
    transmitters *)
Theorem C49_best (rm : rmap RX) (ms : list (radio RX)) (p q : string) (k wp wq : R) : Forall real_radio ms -> real_map rm ->
  map c_tx (commons rm ms p) = map c_tx (commons rm ms q) -> (forall c, In c (commons rm ms p) -> c_db c = (c_meas c + k)%R) ->
  alookup p (rp_weights rm ms true) = Some (Some wp : RX) -> alookup q (rp_weights rm ms true) = Some (Some wq : RX) -> (wq <= wp)%R.
Proof.
  intros Hm Hr Ht Hk. rewrite !rp_weights_real by assumption. cbv zeta.
  destruct (Nat.ltb_spec (List.length (commons rm ms p)) 3) as [L|L]; [discriminate|].
  destruct (Nat.ltb_spec (List.length (commons rm ms q)) 3) as [L'|L']; [discriminate|].
  intros E1 E2. injection E1 as <-. injection E2 as <-. apply (@diff_best _ _ _ k); [exact L'|symmetry; exact Ht|exact Hk].
Qed.
Print Assumptions C49_best.

(** plain mode adds the strengths instead of subtracting them: a point with
    exactly the measured fingerprint is lighter than one 30 dB off *)
Theorem C49_plain_refuted : exists (rm : rmap RX) (ms : list (radio RX)) p q wp wq,
  Forall real_radio ms /\ real_map rm /\ map c_tx (commons rm ms p) = map c_tx (commons rm ms q) /\
  (forall c, In c (commons rm ms p) -> c_db c = c_meas c) /\ (forall c, In c (commons rm ms q) -> c_db c = (c_meas c + 30)%R) /\
  alookup p (rp_weights rm ms false) = Some (Some wp : RX) /\ alookup q (rp_weights rm ms false) = Some (Some wq : RX) /\ (wp < wq)%R.
Proof.
  exists pl_rm, pl_ms, "p", "q", (3 / sqrt (60 - (-60)))%R, (3 / sqrt (60 - (-30)))%R.
  destruct pl_real as [R1 R2]. split; [exact R1|]. split; [exact R2|]. split; [reflexivity|].
  split; [intros c [<-|[<-|[<-|[]]]]; reflexivity|]. split; [intros c [<-|[<-|[<-|[]]]]; cbn; lra|].
  split; [apply pl_weight; [reflexivity|lra]|]. split; [apply pl_weight; [reflexivity|lra]|].
  unfold Rdiv. apply Rmult_lt_compat_l; [lra|]. apply Rinv_lt_contravar; [apply Rmult_lt_0_compat; apply sqrt_lt_R0; lra|].
  apply sqrt_lt_1_alt. lra.
Qed.
Print Assumptions C49_plain_refuted.

Example C49_example : Forall real_radio pl_ms /\ real_map pl_rm /\ (forall c, In c (commons pl_rm pl_ms "q") -> c_db c = (c_meas c + 30)%R) /\
  List.length (commons pl_rm pl_ms "q") = 3%nat /\ map c_tx (commons pl_rm pl_ms "q") = map c_tx (commons pl_rm pl_ms "p").
Proof. destruct pl_real as [R1 R2]. split; [exact R1|]. split; [exact R2|]. split; [intros c [<-|[<-|[<-|[]]]]; cbn; lra|]. split; reflexivity. Qed.

(** ** C50: the position in a triangle *)
Theorem C50_position (ts : list tri) (rps : list (refpoint RX)) (w : list (string * RX)) : ts <> [] -> real_weights w ->
  exists t, heaviest w ts t /\
  ((tri_total w t < / IZR (2 ^ 52))%R \/ point_named rps (tr1 t) = None \/ point_named rps (tr2 t) = None \/ point_named rps (tr3 t) = None ->
     position_in_triangle ts (mk_radiomap rps) w = Ok (mkXY (Some 0%R : RX) (Some 0%R : RX))) /\
  ((/ IZR (2 ^ 52) <= tri_total w t)%R -> forall x1 y1 x2 y2 x3 y3,
     point_named rps (tr1 t) = Some (mkXY (Some x1 : RX) (Some y1 : RX)) ->
     point_named rps (tr2 t) = Some (mkXY (Some x2 : RX) (Some y2 : RX)) ->
     point_named rps (tr3 t) = Some (mkXY (Some x3 : RX) (Some y3 : RX)) ->
     exists a b c, (0 <= a)%R /\ (0 <= b)%R /\ (0 <= c)%R /\ (a + b + c = 1)%R /\
       (a * tri_total w t = wt w (tr1 t))%R /\ (b * tri_total w t = wt w (tr2 t))%R /\ (c * tri_total w t = wt w (tr3 t))%R /\
       position_in_triangle ts (mk_radiomap rps) w = Ok (mkXY (Some (a * x1 + b * x2 + c * x3)%R : RX) (Some (a * y1 + b * y2 + c * y3)%R : RX))).
Proof. exact (@triangle_position ts rps w). Qed.
Print Assumptions C50_position.

Definition C50_rps : list (refpoint RX) :=
  [mkRP "p" (mkXY (Some 0%R) (Some 0%R)) []; mkRP "q" (mkXY (Some 4%R) (Some 0%R)) []; mkRP "r" (mkXY (Some 0%R) (Some 4%R)) []].
Definition C50_w : list (string * RX) := [("p", Some 1%R); ("q", Some 1%R); ("r", Some 2%R)].
Example C50_example : real_weights C50_w /\
  position_in_triangle [mkTri "p" "q" "r"] (mk_radiomap C50_rps) C50_w = Ok (mkXY (Some 1%R : RX) (Some 2%R : RX)).
Proof.
  assert (H : real_weights C50_w) by (repeat constructor; eexists; (split; [reflexivity|lra])).
  split; [exact H|]. destruct (@C50_position [mkTri "p" "q" "r"] C50_rps C50_w) as (t & (l1 & l2 & E & _) & _ & K); [discriminate|exact H|].
  assert (t = mkTri "p" "q" "r") as ->. { destruct l1 as [|? [|]]; try discriminate. injection E as E _. symmetry; exact E. }
  assert (T : tri_total C50_w (mkTri "p" "q" "r") = 4%R) by (unfold tri_total, wt; cbn; lra). rewrite T in K.
  destruct (K) with (x1 := 0%R) (y1 := 0%R) (x2 := 4%R) (y2 := 0%R) (x3 := 0%R) (y3 := 4%R) as (a & b & c & _ & _ & _ & _ & Ha & Hb & Hc & ->); try reflexivity.
  - apply Rle_trans with (/ 1)%R; [|lra]. apply Rinv_le_contravar; [lra|]. apply (IZR_le 1). vm_compute. discriminate.
  - unfold wt in Ha, Hb, Hc; cbn in Ha, Hb, Hc. assert (a = 1 / 4)%R by lra. assert (b = 1 / 4)%R by lra. assert (c = 1 / 2)%R by lra. subst.
    do 3 f_equal; lra.
Qed.

(** the whole estimator: either nothing new, or the position of the heaviest
    triangle under the weights of the whitelisted measurements *)
Theorem C50_estimator {SO : Sorter} (s : settings RX) (kt : ktables RX) (mpos mp p : position RX) (l : level RX) (rps : list (refpoint RX)) ts ms st :
  s_triangles s = true -> Forall real_radio ms -> tables_real kt -> l_rm l = mk_radiomap rps ->
  (forall r, In r rps -> exists x y, rp_pt r = mkXY (Some x : RX) (Some y : RX)) ->
  knn_position s kt mpos l ts ms = Ok (mp, (st, p)) ->
  (st <> OK /\ mp = mpos /\ p = mpos) \/
  (st = OK /\ mp = p /\ exists ids rm tris t x y,
     alookup (l_id l) (kt_refs kt) = Some ids /\ alookup (l_id l) (kt_rmaps kt) = Some rm /\ alookup (l_id l) (kt_tris kt) = Some tris /\
     (s_minmsr s <= List.length (whitelisted ids ms))%nat /\
     let w := rp_weights rm (whitelisted ids ms) (s_diff s) in
     real_weights w /\ heaviest w tris t /\
     p = mkPos (Some x : RX) (Some y : RX) (l_id l) (Some 1%R : RX) ts false INDOOR (Some 0%R : RX) /\
     ((x = 0%R /\ y = 0%R /\ ((tri_total w t < / IZR (2 ^ 52))%R \/ point_named rps (tr1 t) = None \/ point_named rps (tr2 t) = None \/ point_named rps (tr3 t) = None)) \/
      (exists a b c x1 y1 x2 y2 x3 y3,
         point_named rps (tr1 t) = Some (mkXY (Some x1 : RX) (Some y1 : RX)) /\
         point_named rps (tr2 t) = Some (mkXY (Some x2 : RX) (Some y2 : RX)) /\
         point_named rps (tr3 t) = Some (mkXY (Some x3 : RX) (Some y3 : RX)) /\
         (0 <= a)%R /\ (0 <= b)%R /\ (0 <= c)%R /\ (a + b + c = 1)%R /\
         (a * tri_total w t = wt w (tr1 t))%R /\ (b * tri_total w t = wt w (tr2 t))%R /\ (c * tri_total w t = wt w (tr3 t))%R /\
         x = (a * x1 + b * x2 + c * x3)%R /\ y = (a * y1 + b * y2 + c * y3)%R))).
Proof. exact (@knn_estimate SO s kt mpos mp p l rps ts ms st). Qed.
Print Assumptions C50_estimator.

Definition C50_kt : ktables RX := mkKT [("L", pl_rm)] [("L", ["a"; "b"; "c"])] [("L", [mkTri "p" "q" "p"])] [].
Definition C50_level : level RX :=
  mkLevel "L" (mkGeo (Some 0%R : RX) (Some 0%R : RX)) [] (mk_radiomap C50_rps)
    (mkBox (mkXY (Some 0%R : RX) (Some 0%R : RX)) (mkXY (Some 0%R : RX) (Some 0%R : RX))) (fun _ _ => true) (mkGraph [] []).
Example C50_estimator_example (s : settings RX) mpos : s_triangles s = true -> (s_minmsr s <= 3)%nat ->
  tables_real C50_kt /\ (forall r, In r C50_rps -> exists x y, rp_pt r = mkXY (Some x : RX) (Some y : RX)) /\
  exists p, knn_position s C50_kt mpos C50_level 7%Z pl_ms = Ok (p, (OK, p)).
Proof.
  intros Ht Hm. destruct pl_real as [R1 R2]. split; [|split].
  - intros id rm H. unfold C50_kt in H. cbn [kt_rmaps alookup] in H. destruct (String.eqb id "L"); [injection H as <-; exact R2|discriminate].
  - intros r [<-|[<-|[<-|[]]]]; eexists; eexists; reflexivity.
  - unfold knn_position. destruct pl_ms as [|m0 mt] eqn:E; [discriminate|]. rewrite <- E in *. clear E.
    cbn [C50_level l_id C50_kt kt_refs kt_rmaps kt_tris alookup String.eqb Ascii.eqb Bool.eqb at_or_throw bind l_rm].
    change (whitelisted ["a"; "b"; "c"] pl_ms) with pl_ms. change (List.length pl_ms) with 3%nat.
    replace (Nat.ltb 3 (s_minmsr s)) with false by (symmetry; apply Nat.ltb_ge, Hm). rewrite Ht.
    destruct (@C50_position [mkTri "p" "q" "p"] C50_rps (rp_weights pl_rm pl_ms (s_diff s))) as (t & (l1 & l2 & El & _) & K1 & K2); [discriminate|apply rp_weights_good; assumption|].
    assert (t = mkTri "p" "q" "p") as ->. { destruct l1 as [|? [|]]; try discriminate. injection El as El _. symmetry; exact El. }
    destruct (Rlt_dec (tri_total (rp_weights pl_rm pl_ms (s_diff s)) (mkTri "p" "q" "p")) (/ IZR (2 ^ 52))) as [L|L].
    + rewrite K1 by (left; exact L). cbn [bind px py]. eexists. reflexivity.
    + apply Rnot_lt_le in L. destruct (K2 L 0 0 4 0 0 0)%R as (a & b & c & _ & _ & _ & _ & _ & _ & _ & ->); try reflexivity.
      cbn [bind px py]. eexists. reflexivity.
Qed.

(** ** C51: averaging without triangles *)
Theorem C51_zero (F : Type) (NF : Num F) (SO : Sorter) (rm : radiomap F) (w : list (string * F)) (k : nat) :
  ((f0 : F) <! feps) = true -> k_heaviest_average rm w k = Ok (mkXY f0 f0).
Proof. exact (@k_average_zero F NF SO rm w k). Qed.
Print Assumptions C51_zero.
Theorem C51_estimator (F : Type) (NF : Num F) (SO : Sorter) (s : settings F) kt mpos mp p (l : level F) ts ms :
  ((f0 : F) <! feps) = true -> s_triangles s = false -> knn_position s kt mpos l ts ms = Ok (mp, (OK, p)) ->
  p = mkPos f0 f0 (l_id l) f1 ts false INDOOR f0.
Proof. exact (@knn_zero F NF SO s kt mpos mp p l ts ms). Qed.
Print Assumptions C51_estimator.

(** both number types satisfy the hypothesis *)
Example C51_example : ((f0 : SF) <! feps) = true /\ ((f0 : RX) <! feps) = true /\
  k_heaviest_average (F := SF) (l_rm ex_L1) [("p1", fofZ 3); ("p2", fofZ 1)] 2 = Ok (mkXY f0 f0).
Proof.
  split; [vm_compute; reflexivity|]. split; [|vm_compute; reflexivity].
  rewrite rx_f0, feps_real, rx_ltb. apply Rltb_true. apply Rinv_0_lt_compat. apply (IZR_lt 0). reflexivity.
Qed.
(** in particular the average is not that of the two points *)
Theorem C51_average_refuted : exists (rm : radiomap SF) w x y, k_heaviest_average rm w 2 = Ok (mkXY x y) /\
  (forall p, In p (rm_points rm) -> (x <! px (rp_pt p)) = true) /\ map fst w = map (@rp_id SF) (rm_points rm) /\ Forall (fun e => (f0 <! snd e) = true) w.
Proof.
  exists (mk_radiomap [ex_rp "p1" 1 1 []; ex_rp "p2" 10 1 []]), [("p1", fofZ 3); ("p2", fofZ 1)], f0, f0.
  split; [vm_compute; reflexivity|]. split; [intros p [<-|[<-|[]]]; vm_compute; reflexivity|].
  split; [reflexivity|]. repeat constructor.
Qed.
Print Assumptions C51_average_refuted.
