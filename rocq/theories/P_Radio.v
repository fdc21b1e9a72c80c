(** C54-C57: particle likelihood, zone estimator, trilateration. *)
From Coq Require Import Reals Lra Sorted Permutation.
From Verif Require Import Lib NumReal NumFloat LibR SortInst Likelihood Trilat Spec_Knn Spec_Radio Pf_Knn Pf_KnnEst Pf_Radio Pf_Trilat Ex.
Local Open Scope string_scope.
Local Open Scope list_scope.
#[local] Existing Instance nf.
#[local] Existing Instance isorter.

(** ** C54: particle weights *)
Theorem C54_weights (SO : Sorter) (s : settings RX) kt (l : level RX) rps ms (ps : list (XY RX)) ws : ps <> [] ->
  Forall real_radio ms -> tables_real kt -> l_rm l = mk_radiomap rps -> (forall r, In r rps -> real_xy (rp_pt r)) -> Forall real_xy ps ->
  particle_weights s kt l ms ps = Ok ws ->
  exists ids, alookup (l_id l) (kt_refs kt) = Some ids /\
  (((List.length (whitelisted ids ms) < s_minmsr s)%nat /\ ws = map (fun _ => (Some (1 / INR (List.length ps))%R : RX)) ps) \/
   ((s_minmsr s <= List.length (whitelisted ids ms))%nat /\ exists rm o,
      alookup (l_id l) (kt_rmaps kt) = Some rm /\ radiomap_point s kt l (rp_weights rm (whitelisted ids ms) (s_diff s)) = Ok o /\
      match o with
      | None => ws = map (fun _ => (Some 0%R : RX)) ps
      | Some c => real_xy c /\
          let T := rsum (map (closeness c) ps) in
          ((1 / 100000000 < T)%R /\ ws = map (fun q => (Some (closeness c q / T)%R : RX)) ps) \/
          ((T <= 1 / 100000000)%R /\ ws = map (fun q => (Some (closeness c q) : RX)) ps)
      end)).
Proof. exact (@particle_distribution SO s kt l rps ms ps ws). Qed.
Print Assumptions C54_weights.

(** non-negative, and adding up to one unless there is no likelihood point
    or every particle is extremely far from it *)
Theorem C54_sum (SO : Sorter) (s : settings RX) kt (l : level RX) rps ms (ps : list (XY RX)) ws : ps <> [] ->
  Forall real_radio ms -> tables_real kt -> l_rm l = mk_radiomap rps -> (forall r, In r rps -> real_xy (rp_pt r)) -> Forall real_xy ps ->
  particle_weights s kt l ms ps = Ok ws ->
  List.length ws = List.length ps /\ Forall (fun w => defined w /\ (0 <= rval w)%R) ws /\
  (rsum (map rval ws) = 1%R \/ Forall (fun w => w = (Some 0%R : RX)) ws \/
   exists c, real_xy c /\ Forall (fun q => (100000000 - 1 / 10 <= plane_dist q c)%R) ps).
Proof.
  intros Hne Hm Hk Hl Hp Hq H.
  destruct (@particle_distribution SO s kt l rps ms ps ws Hne Hm Hk Hl Hp Hq H) as (ids & _ & [[_ ->]|(_ & rm & o & _ & _ & Ho)]).
  - split; [apply map_length|]. split.
    + apply Forall_forall. intros w Hw. apply in_map_iff in Hw. destruct Hw as (q & <- & Hi). split; [eexists; reflexivity|].
      cbn [rval]. unfold Rdiv. rewrite Rmult_1_l. left. apply Rinv_0_lt_compat, lt_0_INR. destruct ps; [destruct Hi|cbn; apply Nat.lt_0_succ].
    + left. apply uniform_sum, Hne.
  - assert (Pc : forall c q, (0 < closeness c q)%R).
    { intros c q. unfold closeness. apply Rdiv_lt_0_compat; [lra|]. assert (S := sqrt_pos ((rval (px q) - rval (px c)) * (rval (px q) - rval (px c)) + (rval (py q) - rval (py c)) * (rval (py q) - rval (py c)))). unfold plane_dist. lra. }
    destruct o as [c|].
    + destruct Ho as (Rc & [[HT ->]|[HT ->]]).
      * split; [apply map_length|]. split; [|left; apply normal_sum, HT].
        apply Forall_forall. intros w Hw. apply in_map_iff in Hw. destruct Hw as (q & <- & Hi). split; [eexists; reflexivity|].
        cbn [rval]. left. apply Rdiv_lt_0_compat; [apply Pc|lra].
      * split; [apply map_length|]. split.
        { apply Forall_forall. intros w Hw. apply in_map_iff in Hw. destruct Hw as (q & <- & Hi). split; [eexists; reflexivity|]. cbn [rval]. left. apply Pc. }
        right. right. exists c. split; [exact Rc|]. apply Forall_forall. intros q Hi.
        assert (Hle : (closeness c q <= 1 / 100000000)%R).
        { apply Rle_trans with (rsum (map (closeness c) ps)); [|exact HT]. apply (@rsum_member (map (closeness c) ps) (closeness c q)); [|apply in_map, Hi].
          intros x Hx. apply in_map_iff in Hx. destruct Hx as (q' & <- & _). left. apply Pc. }
        assert (Pq := Pc c q). unfold closeness in *. 
        assert (S : (0 < 1 / 10 + plane_dist q c)%R) by (unfold plane_dist; assert (S := sqrt_pos ((rval (px q) - rval (px c)) * (rval (px q) - rval (px c)) + (rval (py q) - rval (py c)) * (rval (py q) - rval (py c)))); lra).
        apply (Rmult_le_compat_r (1 / 10 + plane_dist q c)) in Hle; [|lra]. unfold Rdiv at 1 in Hle. rewrite Rmult_1_l, Rinv_l in Hle by lra. lra.
    + subst ws. split; [apply map_length|]. split.
      * apply Forall_forall. intros w Hw. apply in_map_iff in Hw. destruct Hw as (q & <- & Hi). split; [eexists; reflexivity|]. cbn [rval]. lra.
      * right. left. apply Forall_forall. intros w Hw. apply in_map_iff in Hw. destruct Hw as (q & <- & _). reflexivity.
Qed.
Print Assumptions C54_sum.

Definition C54_kt : ktables SF := mkKT [("L1", [])] [("L1", ["a"])] [("L1", [mkTri "p1" "p2" "p3"])] [].
Definition C54_s : settings SF := ex_settings KNN false 0%nat false false false.
(** a particle 200000 km from the likelihood point is left with its raw weight *)
Theorem C54_far_refuted : exists s kt (l : level SF) ms ps ws w,
  particle_weights s kt l ms ps = Ok ws /\ ws = [w] /\ (f0 <! w) = true /\ (w <! lit 1 100000000) = true.
Proof.
  exists C54_s, C54_kt, ex_L1, [], [mkXY (fofZ 200000000) (fofZ 0)]. eexists. eexists.
  split; [vm_compute; reflexivity|]. split; [reflexivity|]. split; vm_compute; reflexivity.
Qed.
Print Assumptions C54_far_refuted.
Example C54_example : particle_weights C54_s C54_kt ex_L1 [] [mkXY (lit 9 10) (fofZ 0); mkXY (fofZ 0) (lit 9 10)] = Ok [lit 1 2; lit 1 2].
Proof. vm_compute. reflexivity. Qed.
Example C54_example_few : particle_weights (ex_settings KNN false 3%nat false false false) C54_kt ex_L1 [] [mkXY f0 f0; mkXY f1 f0] = Ok [lit 1 2; lit 1 2].
Proof. vm_compute. reflexivity. Qed.

(** ** C55: zone estimator *)
Theorem C55_zone (SO : Sorter) (zt : list (string * (RX * RX))) (l : level RX) ts ms : Forall (fun m => defined (r_rssi m)) ms ->
  ((forall m, In m ms -> place_of l (r_id m) = None) /\ zone_position zt l ts ms = Ok (NO_SOLUTION, pos0)) \/
  exists m p, strongest l ms m /\ place_of l (r_id m) = Some p /\
    exists d, zone_position zt l ts ms = Ok (OK, mkPos (zx p) (zy p) (l_id l) d ts false INDOOR (Some 0%R : RX)) /\
    forall A B, alookup (l_id l) zt = Some ((Some A : RX), (Some B : RX)) -> B <> 0%R ->
      exists dev, d = (Some dev : RX) /\ (1 < dev)%R /\ (dev = sqrt (exp ((A - rval (r_rssi m)) / B)) + 1)%R.
Proof. exact (@zone_exact zt l ts ms). Qed.
Print Assumptions C55_zone.
Example C55_example : Forall (fun m : radio RX => defined (r_rssi m)) al_ms /\ strongest al_level al_ms (al_radio "a") /\
  match zone_position [("L1", (fofZ (-60), fofZ 2))] ex_L1 9%Z ex_ms with
  | Ok (OK, p) => p_x p = fofZ 1 /\ p_y p = fofZ 1 /\ p_level p = "L1"
  | _ => False
  end.
Proof.
  split; [repeat constructor; eexists; reflexivity|]. split.
  - split; [discriminate|]. exists [], [al_radio "b"; al_radio "c"; al_radio "d"]. split; [reflexivity|]. split; [intros u []|].
    intros u [<-|[<-|[<-|[]]]] _; cbn; lra.
  - vm_compute. auto.
Qed.

(** ** C56: intersecting spheres *)
(** the kept measurements are a sorted part of the given ones whose spheres
    meet pairwise; with distinct transmitters every dropped measurement fails
    to meet a kept one that is not farther *)
Theorem C56_kept (SO : Sorter) (l : level RX) ms : measured_on l ms ->
  exists s kept, intersected l ms = Ok kept /\ Permutation ms s /\ StronglySorted by_dist s /\
    (exists keep : radio RX -> bool, kept = filter keep s) /\ StronglySorted by_dist kept /\
    (forall a b, In a kept -> In b kept -> spheres_meet l a b) /\
    (NoDup (map (@r_id RX) ms) -> Forall (fun m => (0 <= rval (r_dist m))%R) ms ->
     forall m, In m ms -> ~ In m kept -> exists m1, In m1 kept /\ by_dist m1 m /\ ~ spheres_meet l m1 m).
Proof. exact (@intersected_exact SO l ms). Qed.
Print Assumptions C56_kept.
(** exact distances of one point: all are kept *)
Theorem C56_exact (SO : Sorter) (l : level RX) P ms : exact_from l P ms ->
  exists s, intersected l ms = Ok s /\ Permutation ms s /\ StronglySorted by_dist s.
Proof. exact (@exact_kept SO l P ms). Qed.
Print Assumptions C56_exact.
(** fewer than four of them: no altitude *)
Theorem C56_few (F : Type) (NF : Num F) (SO : Sorter) svd (l : level F) ms kept :
  intersected l (level_radio l ms) = Ok kept -> (List.length kept < 4)%nat -> altitude svd l ms = Ok None.
Proof.
  intros H Hl. unfold altitude. rewrite H. cbn [bind]. destruct kept as [|m1 rest]; [reflexivity|].
  apply Nat.ltb_lt in Hl. rewrite Hl. reflexivity.
Qed.
Print Assumptions C56_few.
Example C56_example : measured_on al_level al_ms /\ exact_from al_level al_P al_ms /\
  intersected ex_L1 [mkRadio BEACON "b" f0 f0 (fofZ 3) f0; mkRadio BEACON "a" f0 f0 (fofZ 2) f0] = Ok [mkRadio BEACON "a" f0 f0 (fofZ 2) f0] /\
  intersected ex_L1 [mkRadio BEACON "b" f0 f0 (fofZ 7) f0; mkRadio BEACON "a" f0 f0 (fofZ 2) f0] =
    Ok [mkRadio BEACON "a" f0 f0 (fofZ 2) f0; mkRadio BEACON "b" f0 f0 (fofZ 7) f0].
Proof.
  split; [exact (exact_measured al_exact)|]. split; [exact al_exact|]. split; vm_compute; reflexivity.
Qed.

(** ** C57: altitude *)
(** the linear system is right: the point all distances come from solves it *)
Theorem C57_system (l : level RX) P m1 m : exact_from l P [m1; m] ->
  exists p, place_of l (r_id m1) = Some p /\
  let '(a1, a2, a3, c) := sphere_row l m1 m in
  (rval a1 * (rval (zx P) - rval (zx p)) + rval a2 * (rval (zy P) - rval (zy p)) + rval a3 * (rval (zz P) - rval (zz p)) = rval c)%R.
Proof. exact (@system_right l P m1 m). Qed.
Print Assumptions C57_system.
(** what is then computed, when the solution is east of all transmitters: an
    unnormalised sum of terms with a data-dependent exponent *)
Theorem C57_formula (SO : Sorter) (svd : list (RX * RX * RX) -> list RX -> RX * RX * RX) (l : level RX) ms m1 rest x y z p :
  measured_on l ms -> intersected l ms = Ok (m1 :: rest) -> (3 <= List.length rest)%nat -> place_of l (r_id m1) = Some p ->
  let rows := map (sphere_row l m1) rest in
  svd (map fst rows) (map snd rows) = (Some x, Some y, z) ->
  Forall (coded_real l (x + rval (zx p)) (y + rval (zy p))) (m1 :: rest) ->
  altitude svd l ms = Ok (Some (Some (rsum (map (coded_term l (x + rval (zx p)) (y + rval (zy p))) (m1 :: rest))) : RX)).
Proof. exact (@altitude_formula SO svd l ms m1 rest x y z p). Qed.
Print Assumptions C57_formula.
(** four transmitters around the true point, in its plane, exact distances
    and any solver that solves the linear system: more than 3 m off, whatever
    order std::sort leaves *)
Theorem C57_altitude_refuted (SO : Sorter) : exists (l : level RX) ms P, exact_from l P ms /\ (exists svd, solver_for svd l ms) /\
  forall svd, solver_for svd l ms ->
  exists w, altitude svd l ms = Ok (Some (Some w : RX)) /\ (rval (zz P) + 3 < w)%R.
Proof.
  exists al_level, al_ms, al_P. split; [exact al_exact|]. split; [exists al_svd; exact al_solver|].
  intros svd H. destruct (@altitude_wrong SO svd H) as (w & E & Hw). exists w. split; [exact E|]. cbn [al_P zz rval]. lra.
Qed.
Print Assumptions C57_altitude_refuted.

(** transmitters on a vertical line, the point one metre east of it *)
Definition C57_tx (id : string) (z : R) : string * transmitter RX :=
  (id, mkTx id (mkXYZ (Some 0%R : RX) (Some 0%R : RX) (Some z : RX)) (mkPL (Some 0%R : RX) (Some 0%R : RX) (Some 0%R : RX)) TBEACON).
Definition C57_level : level RX :=
  mkLevel "L" (mkGeo (Some 0%R : RX) (Some 0%R : RX)) [C57_tx "a" 0; C57_tx "b" 1; C57_tx "c" 2; C57_tx "d" 3]
    (mkRM [] []) (mkBox (mkXY (Some 0%R : RX) (Some 0%R : RX)) (mkXY (Some 0%R : RX) (Some 0%R : RX))) (fun _ _ => true) (mkGraph [] []).
Definition C57_P : XYZ RX := mkXYZ (Some 1%R : RX) (Some 0%R : RX) (Some 0%R : RX).
Definition C57_radio (id : string) (z : R) : radio RX :=
  mkRadio BEACON id (Some 0%R : RX) (Some 0%R : RX) (Some (space_dist (mkXYZ (Some 0%R : RX) (Some 0%R : RX) (Some z : RX)) C57_P) : RX) (Some 0%R : RX).
Definition C57_ms := [C57_radio "a" 0; C57_radio "b" 1; C57_radio "c" 2; C57_radio "d" 3].
Example C57_example (SO : Sorter) : exact_from C57_level C57_P C57_ms /\ measured_on C57_level C57_ms /\
  exists m1 rest p, intersected C57_level C57_ms = Ok (m1 :: rest) /\ (3 <= List.length rest)%nat /\ place_of C57_level (r_id m1) = Some p /\
    Forall (coded_real C57_level (1 + rval (zx p)) (0 + rval (zy p))) (m1 :: rest).
Proof.
  assert (E : exact_from C57_level C57_P C57_ms).
  { split; [repeat split; eexists; reflexivity|]. repeat constructor; eexists; (split; [reflexivity|]); (split; [repeat split; eexists; reflexivity|reflexivity]). }
  split; [exact E|]. split; [exact (exact_measured E)|]. destruct (exact_kept E) as (s & Hs & Hp & _).
  destruct s as [|m1 rest]; [apply Permutation_length in Hp; discriminate|].
  assert (Hin : forall m, In m (m1 :: rest) -> exists z, place_of C57_level (r_id m) = Some (mkXYZ (Some 0%R : RX) (Some 0%R : RX) (Some z : RX)) /\
     r_dist m = (Some (space_dist (mkXYZ (Some 0%R : RX) (Some 0%R : RX) (Some z : RX)) C57_P) : RX)).
  { intros m Hm. apply Permutation_sym in Hp. apply (Permutation_in _ Hp) in Hm. destruct Hm as [<-|[<-|[<-|[<-|[]]]]]; eexists; split; reflexivity. }
  destruct (Hin m1 (or_introl eq_refl)) as (z1 & P1 & _). exists m1, rest. eexists. split; [exact Hs|].
  split; [apply Permutation_length in Hp; cbn in Hp; injection Hp as ->; auto|]. split; [exact P1|]. cbn [zx zy rval].
  apply Forall_forall. intros m Hm. destruct (Hin m Hm) as (z & Pm & Dm). eexists. split; [exact Pm|]. rewrite Dm. cbn [zx zy rval].
  assert (D : (1 <= space_dist (mkXYZ (Some 0%R : RX) (Some 0%R : RX) (Some z : RX)) C57_P)%R).
  { unfold space_dist, C57_P. cbn [zx zy zz rval]. rewrite <- sqrt_1 at 1. apply sqrt_le_1_alt.
    assert (H := Rle_0_sqr (0 - z)). unfold Rsqr in H. lra. }
  split; [lra|]. split; [lra|]. replace (1 + 0 - 0)%R with 1%R by ring. unfold Rpower. rewrite ln_1, Rmult_0_r, exp_0.
  apply Rle_trans with (1 * 1)%R; [lra|]. apply Rmult_le_compat; lra.
Qed.
