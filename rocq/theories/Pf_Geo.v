(** Proofs for C39-C43. *)
From Coq Require Import Reals Lra Psatz Rgeom.
From Verif Require Import Lib NumReal LibR LevelModel Postproc Spec_Post Spec_Geo Pf_Post.
Set Implicit Arguments.
Local Open Scope R_scope.

Lemma geps_real : (geps : RX) = Some eps.
Proof. unfold geps, eps. rewrite (@rx_lit 1 100000000); [reflexivity|lra]. Qed.
Lemma eps_pos : 0 < eps. Proof. unfold eps. lra. Qed.

(** ** distances *)
Definition sq (a b : pt) : R := (fst a - fst b) * (fst a - fst b) + (snd a - snd b) * (snd a - snd b).
Lemma sq_pos a b : 0 <= sq a b.
Proof. unfold sq. assert (A := Rle_0_sqr (fst a - fst b)). assert (B := Rle_0_sqr (snd a - snd b)). unfold Rsqr in *. lra. Qed.
Lemma pdist_sq a b : pdist a b = sqrt (sq a b). Proof. reflexivity. Qed.
Lemma pdist_le p a b : sq p a <= sq p b -> pdist p a <= pdist p b.
Proof. intros H. rewrite !pdist_sq. apply sqrt_le_1; auto using sq_pos. Qed.
Lemma pdist_triangle a b c : pdist a c <= pdist a b + pdist b c.
Proof.
  assert (T := triangle (fst a) (snd a) (fst c) (snd c) (fst b) (snd b)).
  unfold dist_euc, Rsqr in T. exact T.
Qed.
Lemma pdist_along a b k : 0 <= k <= 1 -> len2 a b <= eps -> pdist a (along a b k) <= 1 / 10000.
Proof.
  intros Hk Hl. rewrite pdist_sq. replace (1 / 10000) with (sqrt eps).
  - apply sqrt_le_1; [apply sq_pos|assert (E := eps_pos); lra|].
    unfold sq, along, len2 in *. cbn [fst snd]. 
    replace (_ + _) with (k * k * ((fst b - fst a) * (fst b - fst a) + (snd b - snd a) * (snd b - snd a))) by ring.
    assert (X : 0 <= len2 a b) by exact (sq_pos b a). unfold len2 in X.
    set (L := (fst b - fst a) * (fst b - fst a) + (snd b - snd a) * (snd b - snd a)) in *.
    assert (K : k * k <= 1) by nra. apply Rle_trans with (1 * L); [apply Rmult_le_compat_r; assumption|lra].
  - replace eps with ((1 / 10000) * (1 / 10000)) by (unfold eps; lra). apply sqrt_square. lra.
Qed.

(** ** nearest point of a segment *)
Definition clampr (x : R) : R := Rmin (Rmax x 0) 1.
Lemma clampr_bounds x : 0 <= clampr x <= 1.
Proof. unfold clampr, Rmin, Rmax. destruct (Rle_dec x 0), (Rle_dec _ 1); lra. Qed.
Definition proj_k (a b o : pt) : R := ((fst o - fst a) * (fst b - fst a) + (snd o - snd a) * (snd b - snd a)) / len2 a b.
Lemma sq_along a b o k : 0 < len2 a b ->
  sq o (along a b k) = sq o (along a b (proj_k a b o)) + len2 a b * ((k - proj_k a b o) * (k - proj_k a b o)).
Proof.
  intros H. unfold proj_k. set (s := (fst o - fst a) * (fst b - fst a) + (snd o - snd a) * (snd b - snd a)). set (L := len2 a b) in *.
  assert (E : forall k, sq o (along a b k) = sq o a - 2 * k * s + k * k * L).
  { intros j. unfold sq, along, s, L, len2. cbn [fst snd]. ring. }
  rewrite !E. field. lra.
Qed.
Lemma nearest a b o k : 0 < len2 a b -> 0 <= k <= 1 -> pdist o (along a b (clampr (proj_k a b o))) <= pdist o (along a b k).
Proof.
  intros H Hk. apply pdist_le. rewrite (@sq_along a b o k H), (@sq_along a b o (clampr _) H).
  set (k0 := proj_k a b o). assert (C : (clampr k0 - k0) * (clampr k0 - k0) <= (k - k0) * (k - k0)).
  { clearbody k0. clear H. unfold clampr, Rmin, Rmax. destruct (Rle_dec k0 0); [destruct (Rle_dec 0 1)|destruct (Rle_dec k0 1)]; try nra.
    replace (k0 - k0) with 0 by ring. assert (X := Rle_0_sqr (k - k0)). unfold Rsqr in X. lra. }
  nra.
Qed.
Lemma len2_pos a b : 0 <= len2 a b.
Proof. assert (X := sq_pos b a). exact X. Qed.
Lemma along0 a b : along a b 0 = a.
Proof. destruct a. unfold along; cbn. f_equal; ring. Qed.
Lemma along1 a b : along a b 1 = b.
Proof. destruct a, b. unfold along; cbn. f_equal; ring. Qed.

Lemma get_projection_real (a b o : pt) :
  get_projection (Some (fst a) : RX) (Some (snd a)) (Some (fst b)) (Some (snd b)) (Some (fst o)) (Some (snd o)) =
  let k := if Rltb eps (len2 a b) then proj_k a b o else 0 in (Some k, rx_pt (along a b k)).
Proof.
  unfold get_projection. rewrite !rx_sub, !rx_mul, !rx_add, geps_real, rx_ltb. fold (len2 a b).
  destruct (Rltb eps (len2 a b)) eqn:E.
  - apply Rltb_true in E. assert (P := eps_pos). rewrite rx_div by lra. fold (proj_k a b o). rewrite !rx_mul, !rx_add. reflexivity.
  - rewrite rx_f0, !rx_mul, !rx_add. reflexivity.
Qed.
Lemma proj_edge_real (u v p : pt) :
  proj_edge (rx_pt u) (rx_pt v) (rx_pt p) =
  rx_pt (if Rltb eps (len2 u v) then along u v (clampr (proj_k u v p)) else u).
Proof.
  unfold proj_edge. cbn [px py rx_pt]. rewrite get_projection_real. cbv zeta.
  destruct (Rltb eps (len2 u v)) eqn:E; rewrite rx_f0, rx_f1, !rx_ltb.
  - set (k := proj_k u v p). unfold clampr, Rmin, Rmax.
    destruct (Rltb k 0) eqn:E1.
    { apply Rltb_true in E1. destruct (Rle_dec k 0); [|lra]. destruct (Rle_dec 0 1); [|lra]. rewrite along0. reflexivity. }
    apply Rltb_false in E1. destruct (Rltb 1 k) eqn:E2.
    + apply Rltb_true in E2. destruct (Rle_dec k 0); [lra|]. destruct (Rle_dec k 1); [lra|]. rewrite along1. reflexivity.
    + apply Rltb_false in E2. destruct (Rle_dec k 0).
      * replace k with 0 by lra. destruct (Rle_dec 0 1); [reflexivity|lra].
      * destruct (Rle_dec k 1); [reflexivity|lra].
  - destruct (Rltb 0 0) eqn:E1; [apply Rltb_true in E1; lra|]. destruct (Rltb 1 0) eqn:E2; [apply Rltb_true in E2; lra|].
    rewrite along0. reflexivity.
Qed.

(** ** C39 *)
Lemma get_vertex_ok {P : Type} (g : graph P) i : has_vertex g i = true -> exists v, nth_error (g_verts g) (Z.to_nat i) = Some v /\ get_vertex g i = Ok v.
Proof.
  intros H. unfold get_vertex. rewrite H. unfold has_vertex in H. apply andb_true_iff in H. destruct H as [H1 H2].
  destruct (nth_error (g_verts g) (Z.to_nat i)) eqn:E; [eexists; split; reflexivity|].
  apply nth_error_None in E. lia.
Qed.
Lemma vertex_real (g : graph (XY RX)) vs i : map snd (g_verts g) = map rx_pt vs -> has_vertex g i = true ->
  exists z u, get_vertex g i = Ok (z, rx_pt u) /\ nth_error vs (Z.to_nat i) = Some u.
Proof.
  intros Hm Hi. destruct (get_vertex_ok g i Hi) as ((z & x) & E & G).
  assert (E2 := map_nth_error snd _ _ E). rewrite Hm in E2. cbn [snd] in E2.
  destruct (nth_error vs (Z.to_nat i)) as [u|] eqn:Ev.
  - rewrite (map_nth_error rx_pt _ _ Ev) in E2. injection E2 as <-. exists z, u. auto.
  - apply nth_error_None in Ev. assert (L : (Z.to_nat i < List.length (map rx_pt vs))%nat) by (apply nth_error_Some; congruence).
    rewrite map_length in L. lia.
Qed.
Definition edge_at (vs : list pt) (e : Z * Z) (u v : pt) : Prop :=
  nth_error vs (Z.to_nat (fst e)) = Some u /\ nth_error vs (Z.to_nat (snd e)) = Some v.
(** what is known after the edges [l] were examined *)
Definition proj_inv (vs : list pt) (p : pt) (l : list (Z * Z)) (q : pt) (d : RX) : Prop :=
  (l = [] /\ q = p /\ d = None) \/
  (d = Some (pdist p q) /\ (exists e u v k, In e l /\ edge_at vs e u v /\ 0 <= k <= 1 /\ q = along u v k) /\
   forall e u v, In e l -> edge_at vs e u v -> pdist p q <= pdist p (if Rltb eps (len2 u v) then along u v (clampr (proj_k u v p)) else u)).
Lemma graph_fold (g : graph (XY RX)) vs p : map snd (g_verts g) = map rx_pt vs -> forall l l0 q d,
  (forall e, In e l -> has_vertex g (fst e) = true /\ has_vertex g (snd e) = true) -> proj_inv vs p l0 q d ->
  exists q' d', fold_left (fun (acc : res (XY RX * RX)) e =>
         '(p0, d0) <- acc ;;
         u <- get_vertex g (fst e) ;;
         v <- get_vertex g (snd e) ;;
         let p1 := proj_edge (snd u) (snd v) (rx_pt p) in
         let d := get_dist (px (rx_pt p)) (py (rx_pt p)) (px p1) (py p1) in
         Ok (if fisnan d0 || (d <! d0) then (p1, d) else (p0, d0))) l (Ok (rx_pt q, d)) = Ok (rx_pt q', d') /\
    proj_inv vs p (l0 ++ l) q' d'.
Proof.
  intros Hm. induction l as [|e t IH]; intros l0 q d He I.
  - exists q, d. rewrite app_nil_r. auto.
  - destruct (He e (or_introl eq_refl)) as [V1 V2].
    destruct (@vertex_real g vs (fst e) Hm V1) as (z1 & u & G1 & U1). destruct (@vertex_real g vs (snd e) Hm V2) as (z2 & v & G2 & U2).
    cbn [fold_left bind]. rewrite G1, G2. cbn [bind snd]. rewrite proj_edge_real. set (n := if Rltb eps (len2 u v) then _ else u).
    cbn [px py rx_pt]. rewrite get_dist_real. fold (pdist p n). change (mkXY (Some (fst n)) (Some (snd n))) with (rx_pt n).
    assert (Hn : exists k, 0 <= k <= 1 /\ n = along u v k).
    { unfold n. destruct (Rltb eps (len2 u v)); [exists (clampr (proj_k u v p)); split; [apply clampr_bounds|reflexivity]|].
      exists 0. split; [lra|]. rewrite along0. reflexivity. }
    destruct Hn as (k & Hk & En).
    assert (D : forall e' u' v', e' = e -> edge_at vs e' u' v' -> u' = u /\ v' = v).
    { intros e' u' v' -> [A B]. rewrite U1 in A. rewrite U2 in B. split; congruence. }
    assert (S1 : forall l1 (r : pt * RX), proj_inv vs p l1 (fst r) (snd r) -> l1 = l0 ++ [e] -> exists q' d',
      fold_left (fun (acc : res (XY RX * RX)) e =>
         '(p0, d0) <- acc ;;
         u <- get_vertex g (fst e) ;;
         v <- get_vertex g (snd e) ;;
         let p1 := proj_edge (snd u) (snd v) (rx_pt p) in
         let d := get_dist (px (rx_pt p)) (py (rx_pt p)) (px p1) (py p1) in
         Ok (if fisnan d0 || (d <! d0) then (p1, d) else (p0, d0))) t (Ok (rx_pt (fst r), snd r)) = Ok (rx_pt q', d') /\
      proj_inv vs p (l0 ++ e :: t) q' d').
    { intros l1 r Hr ->. destruct (IH (l0 ++ [e]) (fst r) (snd r)) as (q' & d' & F & J); [intros e' He'; apply He; right; exact He'|exact Hr|].
      exists q', d'. split; [exact F|]. rewrite <- app_assoc in J. exact J. }
    destruct I as [(-> & -> & ->)|(-> & (e0 & u0 & v0 & k0 & In0 & Ed0 & Hk0 & Eq0) & Hall)].
    + cbn [orb fisnan]. change (fisnan (None : RX)) with true. cbn [orb].
      apply (S1 [e] (n, Some (pdist p n))); [|reflexivity]. right. cbn [fst snd]. split; [reflexivity|]. split.
      * exists e, u, v, k. split; [left; reflexivity|]. split; [split; assumption|]. auto.
      * intros e' u' v' [He'|[]] Ha. destruct (D e' u' v' (eq_sym He') Ha) as [-> ->]. fold n. lra.
    + change (fisnan (Some (pdist p q) : RX)) with false. cbn [orb]. rewrite rx_ltb.
      destruct (Rltb (pdist p n) (pdist p q)) eqn:E.
      * apply Rltb_true in E. apply (S1 (l0 ++ [e]) (n, Some (pdist p n))); [|reflexivity]. right. cbn [fst snd]. split; [reflexivity|]. split.
        -- exists e, u, v, k. split; [apply in_or_app; right; left; reflexivity|]. split; [split; assumption|]. auto.
        -- intros e' u' v' He' Ha. apply in_app_iff in He'. destruct He' as [He'|[He'|[]]].
           ++ specialize (Hall e' u' v' He' Ha). lra.
           ++ destruct (D e' u' v' (eq_sym He') Ha) as [-> ->]. fold n. lra.
      * apply Rltb_false in E. apply (S1 (l0 ++ [e]) (q, Some (pdist p q))); [|reflexivity]. right. cbn [fst snd]. split; [reflexivity|]. split.
        -- exists e0, u0, v0, k0. split; [apply in_or_app; left; exact In0|]. auto.
        -- intros e' u' v' He' Ha. apply in_app_iff in He'. destruct He' as [He'|[He'|[]]].
           ++ exact (Hall e' u' v' He' Ha).
           ++ destruct (D e' u' v' (eq_sym He') Ha) as [-> ->]. fold n. lra.
Qed.
Theorem projection_nearest (g : graph (XY RX)) vs p : real_graph g vs ->
  (g_edges g = [] /\ graph_projection g (rx_pt p) = Ok (rx_pt p)) \/
  exists q, graph_projection g (rx_pt p) = Ok (rx_pt q) /\
    (exists u v k, edge_of g vs u v /\ 0 <= k <= 1 /\ q = along u v k) /\
    (forall u v k, edge_of g vs u v -> 0 <= k <= 1 -> eps < len2 u v -> pdist p q <= pdist p (along u v k)) /\
    (forall u v k, edge_of g vs u v -> 0 <= k <= 1 -> pdist p q <= pdist p (along u v k) + 1 / 10000).
Proof.
  intros [Hm He].
  destruct (@graph_fold g vs p Hm (g_edges g) [] p None He) as (q & d & F & I).
  { left. auto. }
  assert (Q : graph_projection g (rx_pt p) = Ok (rx_pt q)).
  { unfold graph_projection. match goal with |- bind ?L _ = _ => replace L with (Ok (rx_pt q, d)) by (symmetry; exact F) end. reflexivity. }
  rewrite Q. clear F Q. cbn [app] in I. destruct I as [(E & -> & ->)|(-> & (e & u & v & k & Hin & [A B] & Hk & ->) & Hall)].
  { left. auto. }
  right. exists (along u v k). split; [reflexivity|].
  assert (Ball : forall u' v', edge_of g vs u' v' -> pdist p (along u v k) <= pdist p (if Rltb eps (len2 u' v') then along u' v' (clampr (proj_k u' v' p)) else u')).
  { intros u' v' (i & j & Hij & Hi & Hj). apply (Hall (i, j)); [exact Hij|split; assumption]. }
  split; [exists u, v, k; split; [exists (fst e), (snd e); rewrite <- surjective_pairing; auto|auto]|].
  assert (L : forall u' v' k', edge_of g vs u' v' -> 0 <= k' <= 1 -> eps < len2 u' v' -> pdist p (along u v k) <= pdist p (along u' v' k')).
  { intros u' v' k' He' Hk' Hl. specialize (Ball u' v' He'). apply Rltb_true in Hl. rewrite Hl in Ball. apply Rltb_true in Hl.
    assert (N := @nearest u' v' p k'). assert (P := eps_pos). specialize (N ltac:(lra) Hk'). lra. }
  split; [exact L|].
  intros u' v' k' He' Hk'. destruct (Rlt_dec eps (len2 u' v')) as [Hl|Hl].
  - specialize (L u' v' k' He' Hk' Hl). lra.
  - specialize (Ball u' v' He'). destruct (Rltb eps (len2 u' v')) eqn:E; [apply Rltb_true in E; lra|].
    assert (T := pdist_triangle p (along u' v' k') u'). assert (S := @pdist_along u' v' k' Hk' ltac:(lra)).
    assert (Sy : pdist (along u' v' k') u' = pdist u' (along u' v' k')) by (rewrite !pdist_sq; f_equal; unfold sq; ring). lra.
Qed.
Theorem project_near (s : settings RX) (l : level RX) vs (p : position RX) x y gd : real_graph (l_graph l) vs ->
  p_x p = Some x -> p_y p = Some y -> s_graphdist s = Some gd -> s_graphproj s = true ->
  exists q, graph_projection (l_graph l) (rx_pt (x, y)) = Ok (rx_pt q) /\
    project s l p = Ok (if Rltb (pdist (x, y) q) gd then pos_set_xy p (Some (fst q)) (Some (snd q)) else p).
Proof.
  intros G Hx Hy Hd Hs.
  assert (E : exists q, graph_projection (l_graph l) (rx_pt (x, y)) = Ok (rx_pt q)).
  { destruct (projection_nearest (x, y) G) as [[_ E]|(q & E & _)]; eauto. }
  destruct E as (q & E). exists q. split; [exact E|]. unfold project. rewrite Hs, Hx, Hy.
  change (mkXY (Some x) (Some y) : XY RX) with (rx_pt (x, y)). rewrite E. cbn [bind px py rx_pt]. rewrite get_dist_real.
  change (fisnan (Some (rdist x y (fst q) (snd q)) : RX)) with false. cbn [negb andb]. rewrite Hd, rx_ltb. reflexivity.
Qed.

(** ** C40 *)
Lemma spd_real (a b p : pt) : segment_point_dist (rx_pt a) (rx_pt b) (rx_pt p) =
  Some (if Rltb (len2 a b) eps then pdist a p else pdist (along a b (clampr (proj_k a b p))) p).
Proof.
  unfold segment_point_dist. cbn [px py rx_pt]. rewrite !rx_sub, !rx_mul, !rx_add, geps_real, rx_ltb.
  fold (len2 a b). destruct (Rltb (len2 a b) eps) eqn:E.
  - rewrite get_dist_real. reflexivity.
  - apply Rltb_false in E. assert (P := eps_pos). rewrite rx_div by lra. fold (proj_k a b p).
    rewrite rx_f0, rx_f1, rx_fmax, rx_fmin. fold (clampr (proj_k a b p)). rewrite !rx_mul, !rx_add, !rx_sub, !rx_mul, !rx_add.
    rewrite rx_sqrt; [reflexivity|]. exact (sq_pos (along a b (clampr (proj_k a b p))) p).
Qed.
Lemma pdist_sym a b : pdist a b = pdist b a.
Proof. rewrite !pdist_sq. f_equal. unfold sq. ring. Qed.
Theorem segment_dist (a b p : pt) : exists d, segment_point_dist (rx_pt a) (rx_pt b) (rx_pt p) = Some d /\
  (exists k, 0 <= k <= 1 /\ d = pdist p (along a b k)) /\
  (forall k, 0 <= k <= 1 -> d <= pdist p (along a b k) + 1 / 10000) /\
  (eps <= len2 a b -> forall k, 0 <= k <= 1 -> d <= pdist p (along a b k)).
Proof.
  rewrite spd_real. destruct (Rltb (len2 a b) eps) eqn:E.
  - apply Rltb_true in E. eexists. split; [reflexivity|]. split; [exists 0; split; [lra|rewrite along0; apply pdist_sym]|].
    split; [|lra]. intros k Hk. assert (T := pdist_triangle p (along a b k) a). assert (S := @pdist_along a b k Hk ltac:(lra)).
    rewrite (pdist_sym (along a b k) a) in T. rewrite (pdist_sym a p). lra.
  - apply Rltb_false in E. assert (P := eps_pos). eexists. split; [reflexivity|]. rewrite pdist_sym.
    split; [exists (clampr (proj_k a b p)); split; [apply clampr_bounds|reflexivity]|].
    assert (N : forall k, 0 <= k <= 1 -> pdist p (along a b (clampr (proj_k a b p))) <= pdist p (along a b k)) by (intros k Hk; apply nearest; [lra|exact Hk]).
    split; [|intros _; exact N]. intros k Hk. specialize (N k Hk). lra.
Qed.

(** intersection *)
Lemma cramer (p q a b : pt) k l : dirdet p q a b <> 0 ->
  (along p q k = along a b l <->
   k = ((fst a - fst p) * (snd b - snd a) - (fst b - fst a) * (snd a - snd p)) / dirdet p q a b /\
   l = - ((fst q - fst p) * (snd a - snd p) - (fst a - fst p) * (snd q - snd p)) / dirdet p q a b).
Proof.
  intros H. unfold along. split.
  - intros E. injection E as E1 E2. unfold dirdet in *.
    set (pqx := fst q - fst p) in *. set (pqy := snd q - snd p) in *. set (abx := fst b - fst a) in *. set (aby := snd b - snd a) in *.
    assert (X : fst a - fst p = k * pqx - l * abx) by lra. assert (Y : snd a - snd p = k * pqy - l * aby) by lra. rewrite X, Y.
    split; field; exact H.
  - intros [-> ->]. unfold dirdet in *.
    set (pqx := fst q - fst p) in *. set (pqy := snd q - snd p) in *. set (abx := fst b - fst a) in *. set (aby := snd b - snd a) in *.
    f_equal.
    + apply (Rplus_eq_reg_l (- fst p)). transitivity ((fst a - fst p) + - ((pqx * (snd a - snd p) - (fst a - fst p) * pqy)) / (pqx * aby - abx * pqy) * abx); [field; exact H|ring].
    + apply (Rplus_eq_reg_l (- snd p)). transitivity ((snd a - snd p) + - ((pqx * (snd a - snd p) - (fst a - fst p) * pqy)) / (pqx * aby - abx * pqy) * aby); [field; exact H|ring].
Qed.
Theorem intersection_exact (p q a b : pt) :
  (Rabs (dirdet p q a b) < eps -> gi p q a b = (None, None)) /\
  (eps <= Rabs (dirdet p q a b) ->
    (forall k l, 0 <= k <= 1 -> 0 <= l <= 1 -> along p q k = along a b l -> gi p q a b = (Some k, Some (rx_pt (along p q k)))) /\
    (gi p q a b = (None, None) \/
     exists k l, 0 <= k <= 1 /\ 0 <= l <= 1 /\ along p q k = along a b l /\ gi p q a b = (Some k, Some (rx_pt (along p q k))))).
Proof.
  unfold gi, get_intersection, det2. rewrite !rx_sub, !rx_mul, !rx_sub. fold (dirdet p q a b). set (D := dirdet p q a b).
  rewrite rx_abs, geps_real, rx_ltb. split.
  - intros H. apply Rltb_true in H. rewrite H. reflexivity.
  - intros H. assert (E := proj2 (Rltb_false _ _) H). rewrite E.
    assert (D0 : D <> 0). { intros Z. rewrite Z, Rabs_R0 in H. assert (P := eps_pos). lra. }
    rewrite rx_opp, !rx_div by exact D0. rewrite rx_f0, rx_f1, !rx_ltb.
    set (K := _ / D). set (L := - _ / D).
    split.
    + intros k l Hk Hl Hm. apply (@cramer p q a b k l D0) in Hm. destruct Hm as [Ek El]. assert (Ek' : k = K) by exact Ek. assert (El' : l = L) by exact El. clear Ek El.
      rewrite Ek' in *. rewrite El' in *. clearbody K L. clear Ek' El' k l.
      rewrite (proj2 (Rltb_false K 0)), (proj2 (Rltb_false 1 K)), (proj2 (Rltb_false L 0)), (proj2 (Rltb_false 1 L)) by lra. cbn [orb].
      rewrite !rx_mul, !rx_add. reflexivity.
    + destruct (Rltb K 0) eqn:E1; [left; reflexivity|]. destruct (Rltb 1 K) eqn:E2; [left; reflexivity|].
      destruct (Rltb L 0) eqn:E3; [left; reflexivity|]. destruct (Rltb 1 L) eqn:E4; [left; reflexivity|].
      apply Rltb_false in E1, E2, E3, E4. right. exists K, L. repeat (split; [lra|]). split; [apply (@cramer p q a b K L D0); split; reflexivity|].
      cbn [orb]. rewrite !rx_mul, !rx_add. reflexivity.
Qed.

Lemma area_real (a b c : pt) : get_area (Some (fst a) : RX) (Some (snd a)) (Some (fst b)) (Some (snd b)) (Some (fst c)) (Some (snd c)) = Some (cross a b c / 2).
Proof.
  unfold get_area, det2. rewrite !rx_sub, !rx_mul, rx_sub, rx_ofZ, rx_div by lra. f_equal. unfold cross. field.
Qed.
Lemma bbox_real a b c d : bound_box_check (Some a : RX) (Some b) (Some c) (Some d) = true <-> Rmax (Rmin a b) (Rmin c d) < Rmin (Rmax a b) (Rmax c d).
Proof.
  unfold bound_box_check. rewrite !rx_ltb.
  assert (M : forall u v, (Rltb v u = true -> Rmin u v = v /\ Rmax u v = u) /\ (Rltb v u = false -> Rmin u v = u /\ Rmax u v = v)).
  { intros u v. rewrite Rltb_true, Rltb_false. unfold Rmin, Rmax. destruct (Rle_dec u v); split; intros; split; lra. }
  destruct (Rltb b a) eqn:E1; apply (M a b) in E1; destruct E1 as [-> ->];
  destruct (Rltb d c) eqn:E2; apply (M c d) in E2; destruct E2 as [-> ->];
  rewrite rx_fmax, rx_fmin, rx_ltb; apply Rltb_true.
Qed.
Lemma cross_along (a b c d : pt) : cross a b d - cross a b c = dirdet a b c d /\ cross c d a - cross c d b = dirdet a b c d.
Proof. unfold cross, dirdet. split; ring. Qed.
Lemma opposite (u v : R) : u / 2 * (v / 2) < 0 -> v - u <> 0 /\ 0 < - u / (v - u) < 1.
Proof.
  intros H. assert (N : u * v < 0) by lra. destruct (Rlt_dec u 0) as [Hu|Hu].
  - assert (0 < v) by nra. split; [lra|]. split; [apply Rdiv_lt_0_compat; lra|]. apply (Rmult_lt_reg_r (v - u)); [lra|]. unfold Rdiv. rewrite Rmult_assoc, Rinv_l by lra. lra.
  - assert (U : u <> 0) by (intros ->; lra). assert (0 < u) by lra. assert (v < 0) by nra. split; [lra|].
    replace (- u / (v - u)) with (u / (u - v)) by (field; lra).
    split; [apply Rdiv_lt_0_compat; lra|]. apply (Rmult_lt_reg_r (u - v)); [lra|]. unfold Rdiv. rewrite Rmult_assoc, Rinv_l by lra. lra.
Qed.
Lemma box_interior a b c d k l : 0 < k < 1 -> 0 < l < 1 -> a + k * (b - a) = c + l * (d - c) ->
  (Rmax (Rmin a b) (Rmin c d) < Rmin (Rmax a b) (Rmax c d) <-> a <> b /\ c <> d).
Proof.
  intros Hk Hl E. split.
  - intros H. split; intros ->; revert H; unfold Rmin, Rmax; repeat destruct (Rle_dec _ _); lra.
  - intros [H1 H2]. set (m := a + k * (b - a)) in *.
    assert (A : Rmin a b < m < Rmax a b) by (unfold m, Rmin, Rmax; destruct (Rle_dec a b); split; nra).
    assert (B : Rmin c d < m < Rmax c d) by (rewrite E; unfold Rmin, Rmax; destruct (Rle_dec c d); split; nra).
    apply Rlt_trans with m; [apply Rmax_lub_lt; lra|apply Rmin_glb_lt; lra].
Qed.
Theorem check_exact (a b c d : pt) : ci a b c d = true <-> cross_properly a b c d /\ oblique a b /\ oblique c d.
Proof.
  unfold ci, check_intersection. rewrite !area_real, !rx_mul, rx_f0, !rx_ltb, !andb_true_iff, !bbox_real, !Rltb_true.
  destruct (cross_along a b c d) as [C1 C2]. split.
  - intros (((Bx & By) & H1) & H2). destruct (@opposite _ _ H1) as [N1 K1].
    assert (H2' : cross c d b / 2 * (cross c d a / 2) < 0) by lra. destruct (@opposite _ _ H2') as [N2 K2].
    rewrite C1 in N1, K1. rewrite C2 in N2, K2.
    assert (P : cross_properly a b c d).
    { split; [exact N1|].
      exists (cross c d a / dirdet a b c d), (- cross a b c / dirdet a b c d).
      assert (E1 : cross c d a / dirdet a b c d = 1 - (- cross c d b / dirdet a b c d)) by (rewrite <- C2; field; rewrite C2; exact N1).
      split; [rewrite E1; lra|]. split; [exact K1|]. apply (@cramer a b c d _ _ N1). unfold cross. split; field; exact N1. }
    split; [exact P|]. destruct P as [_ (k & l & Hk & Hl & E)].
    unfold along in E. injection E as E1 E2. apply (@box_interior _ _ _ _ _ _ Hk Hl E1) in Bx. apply (@box_interior _ _ _ _ _ _ Hk Hl E2) in By.
    unfold oblique. tauto.
  - intros ((N & k & l & Hk & Hl & E) & (O1 & O2) & (O3 & O4)).
    assert (Ek := proj1 (@cramer a b c d k l N) E). destruct Ek as [Ek El].
    unfold along in E. injection E as E1 E2.
    assert (Ca : cross c d a = k * dirdet a b c d) by (rewrite Ek; unfold cross; field; exact N).
    assert (Cc : cross a b c = - l * dirdet a b c d) by (rewrite El; unfold cross; field; exact N).
    split; [split; [split|]|].
    + apply (@box_interior _ _ _ _ _ _ Hk Hl E1). tauto.
    + apply (@box_interior _ _ _ _ _ _ Hk Hl E2). tauto.
    + replace (cross a b d) with ((1 - l) * dirdet a b c d) by lra. rewrite Cc.
      assert (0 < l * (1 - l)) by nra. assert (0 < dirdet a b c d * dirdet a b c d) by (apply Rsqr_pos_lt in N; exact N). nra.
    + replace (cross c d b) with (- (1 - k) * dirdet a b c d) by lra. rewrite Ca.
      assert (0 < k * (1 - k)) by nra. assert (0 < dirdet a b c d * dirdet a b c d) by (apply Rsqr_pos_lt in N; exact N). nra.
Qed.
Lemma proper_sym a b c d : cross_properly a b c d -> cross_properly c d a b.
Proof.
  intros (N & k & l & Hk & Hl & E). split; [|exists l, k; auto]. intros Z. apply N. unfold dirdet in *. lra.
Qed.
Lemma proper_flip a b c d : cross_properly a b c d -> cross_properly b a c d.
Proof.
  intros (N & k & l & Hk & Hl & E). split; [intros Z; apply N; unfold dirdet in *; lra|].
  exists (1 - k), l. split; [lra|]. split; [exact Hl|]. rewrite <- E. unfold along. f_equal; ring.
Qed.
Theorem check_symmetric (a b c d : pt) : ci a b c d = ci c d a b /\ ci a b c d = ci b a c d.
Proof.
  assert (S : forall a b c d a' b' c' d', (ci a b c d = true <-> ci a' b' c' d' = true) -> ci a b c d = ci a' b' c' d').
  { intros. destruct (ci a0 b0 c0 d0), (ci a' b' c' d'); try reflexivity; [symmetry; apply H; reflexivity|apply H; reflexivity]. }
  split; apply S; rewrite !check_exact; unfold oblique.
  - split; intros (H & ? & ?); (split; [apply proper_sym, H|tauto]).
  - split; intros (H & (? & ?) & ?); (split; [apply proper_flip, H|intuition congruence]).
Qed.

(** ** C41 *)
Definition rnorm (l : R) : R := if Rltb 180 l then l - 360 else if Rleb l (-180) then l + 360 else l.
Lemma norm_real l : normalize_longitude (Some l : RX) = Some (rnorm l).
Proof.
  unfold normalize_longitude, rnorm. rewrite !rx_ofZ, rx_ltb, rx_leb.
  destruct (Rltb 180 l); [apply rx_sub|]. destruct (Rleb l (-180)); [apply rx_add|reflexivity].
Qed.
Lemma rnorm_cases l : (180 < l /\ rnorm l = l - 360) \/ (l <= -180 /\ rnorm l = l + 360) \/ (-180 < l <= 180 /\ rnorm l = l).
Proof.
  unfold rnorm. destruct (Rltb 180 l) eqn:E; [apply Rltb_true in E; auto|apply Rltb_false in E].
  destruct (Rleb l (-180)) eqn:E2; [apply Rleb_true in E2; auto|apply Rleb_false in E2]. right; right. lra.
Qed.
Lemma congruent_rnorm l : congruent l (rnorm l).
Proof.
  destruct (rnorm_cases l) as [[_ ->]|[[_ ->]|[_ ->]]]; [exists (-1)%Z|exists 1%Z|exists 0%Z]; cbn; lra.
Qed.
Lemma congruent_unique a b : lon_range a -> lon_range b -> congruent a b -> a = b.
Proof.
  unfold lon_range. intros Ha Hb (k & Hk). assert (K : (-1 < k < 1)%Z) by (split; apply lt_IZR; lra).
  assert (k = 0%Z) by lia. subst k. lra.
Qed.
Theorem normalize_exact l : exists r, normalize_longitude (Some l : RX) = Some r /\ congruent l r /\ (near_range l <-> lon_range r) /\ (lon_range l -> r = l).
Proof.
  exists (rnorm l). split; [apply norm_real|]. split; [apply congruent_rnorm|]. unfold near_range, lon_range.
  destruct (rnorm_cases l) as [[H ->]|[[H ->]|[H ->]]]; split; try split; intros; lra.
Qed.
Lemma gps_to_local_real (p b : pt) : gps_to_local (rx_geo p) (rx_geo b) =
  rx_pt (rnorm (snd p - snd b) * (circ_at b / 360), (fst p - fst b) * (40008000 / 360)).
Proof.
  unfold gps_to_local, rx_geo, deg_to_rad, equator_m, pole_m. cbn [lat lon]. rewrite !rx_sub, norm_real, !rx_ofZ.
  change (fpi : RX) with (Some PI). rewrite rx_mul, (@rx_div (fst b * PI)) by lra.
  change (fcos (Some (fst b * PI / 180))) with (Some (cos (fst b * PI / 180)) : RX).
  rewrite rx_mul, !rx_div by lra. rewrite !rx_mul. reflexivity.
Qed.
Lemma local_to_gps_real (q b : pt) : circ_at b <> 0 -> local_to_gps (rx_pt q) (rx_geo b) =
  rx_geo (snd q * (360 / 40008000) + fst b, rnorm (fst q * 360 / circ_at b + snd b)).
Proof.
  intros H. unfold local_to_gps, rx_geo, deg_to_rad, equator_m, pole_m. cbn [lat lon rx_pt px py]. rewrite !rx_ofZ.
  change (fpi : RX) with (Some PI). rewrite rx_mul, (@rx_div (fst b * PI)) by lra.
  change (fcos (Some (fst b * PI / 180))) with (Some (cos (fst b * PI / 180)) : RX).
  rewrite !rx_mul. fold (circ_at b). rewrite (@rx_div 360 40008000) by lra. rewrite rx_div by exact H. rewrite !rx_mul, !rx_add, norm_real. reflexivity.
Qed.
Theorem gps_roundtrip (p b : pt) : circ_at b <> 0 -> lon_range (snd p) -> lon_range (snd b) ->
  local_to_gps (gps_to_local (rx_geo p) (rx_geo b)) (rx_geo b) = rx_geo p.
Proof.
  intros Hc Hp Hb. rewrite gps_to_local_real, local_to_gps_real by exact Hc. cbn [fst snd].
  replace ((fst p - fst b) * (40008000 / 360) * (360 / 40008000) + fst b) with (fst p) by field.
  replace (rnorm (snd p - snd b) * (circ_at b / 360) * 360 / circ_at b + snd b) with (rnorm (snd p - snd b) + snd b) by (field; exact Hc).
  destruct p as [la lo]. cbn [fst snd] in *. f_equal. f_equal. unfold lon_range in *.
  destruct (rnorm_cases (lo - snd b)) as [[H ->]|[[H ->]|[H ->]]]; match goal with |- rnorm ?x = _ => destruct (rnorm_cases x) as [[H2 ->]|[[H2 ->]|[H2 ->]]] end; lra.
Qed.
Theorem local_roundtrip (q b : pt) : circ_at b <> 0 -> lon_range (snd b) -> lon_range (fst q * 360 / circ_at b) ->
  gps_to_local (local_to_gps (rx_pt q) (rx_geo b)) (rx_geo b) = rx_pt q.
Proof.
  intros Hc Hb Hq. rewrite local_to_gps_real by exact Hc. rewrite gps_to_local_real. cbn [fst snd].
  destruct q as [x y]. cbn [fst snd] in *. unfold lon_range in *.
  replace ((y * (360 / 40008000) + fst b - fst b) * (40008000 / 360)) with y by field.
  assert (E : rnorm (rnorm (x * 360 / circ_at b + snd b) - snd b) = x * 360 / circ_at b).
  { set (d := x * 360 / circ_at b) in *. destruct (rnorm_cases (d + snd b)) as [[H ->]|[[H ->]|[H ->]]];
    match goal with |- rnorm ?x = _ => destruct (rnorm_cases x) as [[H2 ->]|[[H2 ->]|[H2 ->]]] end; lra. }
  rewrite E. f_equal. f_equal. field. exact Hc.
Qed.
Lemma circ_nonzero b : -90 < fst b < 90 -> circ_at b <> 0.
Proof.
  intros H. unfold circ_at. assert (P := PI_RGT_0). assert (C : 0 < cos (fst b * PI / 180)) by (apply cos_gt_0; nra). lra.
Qed.

(** ** C42 *)
Lemma pair_ltb_spec a b : pair_ltb a b = true <-> edge_lt a b.
Proof. unfold pair_ltb, edge_lt. rewrite orb_true_iff, andb_true_iff, !Z.ltb_lt, Z.eqb_eq. tauto. Qed.
Lemma edge_lt_trans a b c : edge_lt a b -> edge_lt b c -> edge_lt a c.
Proof. unfold edge_lt. lia. Qed.
Lemma edge_tri a b : edge_lt a b \/ a = b \/ edge_lt b a.
Proof. destruct a, b. unfold edge_lt; cbn. destruct (Z.lt_trichotomy z z1) as [|[->|]]; [lia| |lia]. destruct (Z.lt_trichotomy z0 z2) as [|[->|]]; auto. Qed.
Lemma set_insert_in e l x : In x (set_insert e l) <-> x = e \/ In x l.
Proof.
  induction l as [|y t IH]; cbn [set_insert]; [cbn; intuition congruence|].
  destruct (pair_ltb e y) eqn:E1; [cbn; intuition congruence|].
  destruct (pair_ltb y e) eqn:E2; [cbn [In]; rewrite IH; tauto|].
  assert (X : e = y).
  { destruct (edge_tri e y) as [H|[H|H]]; [apply pair_ltb_spec in H; congruence|exact H|apply pair_ltb_spec in H; congruence]. }
  subst y. cbn. intuition.
Qed.
Lemma set_insert_sorted e l : StronglySorted edge_lt l -> StronglySorted edge_lt (set_insert e l).
Proof.
  induction 1 as [|y t Hs IH Hy]; cbn [set_insert]; [repeat constructor|].
  destruct (pair_ltb e y) eqn:E1.
  - apply pair_ltb_spec in E1. constructor; [constructor; assumption|]. constructor; [exact E1|].
    eapply Forall_impl; [|exact Hy]. intros z Hz. eapply edge_lt_trans; eauto.
  - destruct (pair_ltb y e) eqn:E2; [|constructor; assumption]. apply pair_ltb_spec in E2. constructor; [exact IH|].
    apply Forall_forall. intros z Hz. apply set_insert_in in Hz. destruct Hz as [->|Hz]; [exact E2|]. rewrite Forall_forall in Hy. auto.
Qed.
Lemma set_insert_last e l : Forall (fun x => edge_lt x e) l -> set_insert e l = l ++ [e].
Proof.
  induction 1 as [|y t Hy _ IH]; cbn [set_insert app]; [reflexivity|].
  destruct (pair_ltb e y) eqn:E; [apply pair_ltb_spec in E; unfold edge_lt in *; lia|].
  apply pair_ltb_spec in Hy. rewrite Hy, IH. reflexivity.
Qed.
Definition zseq (n : nat) : list Z := map Z.of_nat (seq 0 n).
Definition graph_wf {P : Type} (g : graph P) : Prop :=
  map fst (g_verts g) = zseq (List.length (g_verts g)) /\ StronglySorted edge_lt (g_edges g) /\
  (forall e, In e (g_edges g) -> (0 <= fst e <= snd e /\ snd e < Z.of_nat (List.length (g_verts g)))%Z).
Lemma zseq_S n : zseq (S n) = zseq n ++ [Z.of_nat n].
Proof. unfold zseq. rewrite seq_S, map_app. reflexivity. Qed.
Lemma has_vertex_spec {P : Type} (g : graph P) i : has_vertex g i = true <-> (0 <= i < Z.of_nat (List.length (g_verts g)))%Z.
Proof. unfold has_vertex. rewrite andb_true_iff, Z.leb_le, Z.ltb_lt. tauto. Qed.
Lemma add_edge_inv {P : Type} (g : graph P) i j g' : add_edge g i j = Ok g' ->
  g_verts g' = g_verts g /\ g_edges g' = set_insert (Z.min i j, Z.max i j) (g_edges g) /\ has_vertex g i = true /\ has_vertex g j = true.
Proof.
  unfold add_edge. destruct (has_vertex g i) eqn:E1; cbn [negb orb]; [|discriminate]. destruct (has_vertex g j) eqn:E2; cbn [negb orb]; [|discriminate].
  intros H. injection H as <-. cbn [g_verts g_edges]. split; [reflexivity|]. split; [|auto].
  destruct (Z.ltb_spec i j); f_equal; f_equal; lia.
Qed.
Lemma graph_wf_built {P : Type} (g : graph P) : graph_built g -> graph_wf g.
Proof.
  induction 1 as [|g p B (I1 & I2 & I3)|g i j g' B (I1 & I2 & I3) H].
  - split; [reflexivity|]. split; [constructor|]. intros e [].
  - unfold add_vertex. cbn [g_verts g_edges]. split; [|split; [exact I2|]].
    + cbn [g_verts]. rewrite map_app, app_length, I1. cbn [map List.length fst]. rewrite Nat.add_1_r, zseq_S. reflexivity.
    + cbn [g_verts g_edges]. intros e He. specialize (I3 e He). rewrite app_length. cbn. lia.
  - apply add_edge_inv in H. destruct H as (E1 & E2 & V1 & V2). apply has_vertex_spec in V1, V2.
    split; [rewrite E1; exact I1|]. split; [rewrite E2; apply set_insert_sorted, I2|].
    rewrite E1, E2. intros e He. apply set_insert_in in He. destruct He as [->|He]; [cbn; lia|exact (I3 e He)].
Qed.
Theorem edges_exact {P : Type} (g : graph P) l : edges_added g l ->
  NoDup (g_edges g) /\ forall u v, In (u, v) (g_edges g) <-> (u <= v)%Z /\ (In (u, v) l \/ In (v, u) l).
Proof.
  intros H. split.
  - assert (W : graph_wf g). { apply graph_wf_built. clear - H. induction H; [constructor|constructor; assumption|econstructor; eauto]. }
    destruct W as (_ & S & _). clear - S. induction S as [|x t S IH Hx]; constructor; [|exact IH].
    intros Hin. rewrite Forall_forall in Hx. specialize (Hx _ Hin). unfold edge_lt in Hx. lia.
  - induction H as [|g p l H IH|g i j g' l H IH E]; intros u v.
    + cbn. tauto.
    + apply IH.
    + apply add_edge_inv in E. destruct E as (_ & -> & _). rewrite set_insert_in, IH. cbn [In]. split.
      * intros [E|[A B]]; [injection E as -> ->|tauto]. split; [lia|]. destruct (Z.le_gt_cases i j).
        -- left. left. f_equal; lia.
        -- right. left. f_equal; lia.
      * intros [A [[B|B]|[B|B]]]; [injection B as -> ->|tauto|injection B as -> ->|tauto]; left; f_equal; lia.
Qed.
Section LocalGraph.
Context {F : Type} {NF : Num F}.
Variable b : Geo F.
Let conv (v : Z * Geo F) : Z * XY F := (fst v, gps_to_local (snd v) b).
Lemma vert_fold (vs : list (Z * Geo F)) : forall xy ids,
  map fst vs = map Z.of_nat (seq (List.length (g_verts xy)) (List.length vs)) -> g_edges xy = [] ->
  (forall i, (0 <= i < Z.of_nat (List.length (g_verts xy)))%Z -> find (fun e : Z * Z => Z.eqb (fst e) i) ids = Some (i, i)) ->
  exists ids', fold_left (fun (acc : graph (XY F) * list (Z * Z)) v =>
      let '(xy, ids) := acc in
      (add_vertex xy (gps_to_local (snd v) b), (fst v, Z.of_nat (List.length (g_verts xy))) :: ids)) vs (xy, ids) =
    (mkGraph (g_verts xy ++ map conv vs) [], ids') /\
    (forall i, (0 <= i < Z.of_nat (List.length (g_verts xy) + List.length vs))%Z -> find (fun e : Z * Z => Z.eqb (fst e) i) ids' = Some (i, i)).
Proof.
  induction vs as [|v t IH]; intros xy ids Hi He Hids.
  - cbn [fold_left map]. exists ids. rewrite app_nil_r, Nat.add_0_r. split; [|exact Hids]. destruct xy; cbn in *; subst; reflexivity.
  - cbn [fold_left map List.length] in *. cbn [seq map] in Hi. injection Hi as Hv Ht.
    destruct (IH (add_vertex xy (gps_to_local (snd v) b)) ((fst v, Z.of_nat (List.length (g_verts xy))) :: ids)) as (ids' & E & Hids').
    + cbn [add_vertex g_verts]. rewrite app_length. cbn [List.length]. rewrite Nat.add_1_r. exact Ht.
    + exact He.
    + intros i Hi. cbn [add_vertex g_verts] in Hi. rewrite app_length in Hi. cbn [List.length] in Hi. cbn [find fst].
      destruct (Z.eqb_spec (fst v) i) as [E|E]; [f_equal; f_equal; lia|]. apply Hids. lia.
    + exists ids'. cbn [add_vertex g_verts] in E, Hids'. rewrite app_length in Hids'. cbn [List.length] in Hids'. split.
      * rewrite E, <- app_assoc. cbn [app]. assert (Cv : conv v = (Z.of_nat (List.length (g_verts xy)), gps_to_local (snd v) b)) by (unfold conv; rewrite Hv; reflexivity). rewrite Cv. reflexivity.
      * intros i Hi. apply Hids'. lia.
Qed.
Theorem local_graph_exact (g : graph (Geo F)) : graph_built g ->
  local_graph b g = Ok (mkGraph (map conv (g_verts g)) (g_edges g)).
Proof.
  intros B. destruct (graph_wf_built B) as (W1 & W2 & W3). unfold local_graph.
  destruct (@vert_fold (g_verts g) graph0 []) as (ids & E & Hids); [exact W1|reflexivity|cbn; lia|].
  rewrite E. cbn [graph0 g_verts app List.length] in *. rewrite Nat.add_0_l in Hids.
  assert (K : forall l l0, g_edges g = l0 ++ l ->
    fold_left (fun (acc : res (graph (XY F))) e =>
      xy <- acc ;; v1 <- get_vertex g (fst e) ;; v2 <- get_vertex g (snd e) ;;
      add_edge xy (match find (fun e => Z.eqb (fst e) (fst v1)) ids with Some e => snd e | None => 0%Z end)
                  (match find (fun e => Z.eqb (fst e) (fst v2)) ids with Some e => snd e | None => 0%Z end))
      l (Ok (mkGraph (map conv (g_verts g)) l0)) = Ok (mkGraph (map conv (g_verts g)) (g_edges g))).
  { induction l as [|e t IH]; intros l0 Hl; cbn [fold_left bind]; [rewrite Hl, app_nil_r; reflexivity|].
    assert (He := W3 e ltac:(rewrite Hl; apply in_or_app; right; left; reflexivity)).
    assert (G : forall i, (0 <= i < Z.of_nat (List.length (g_verts g)))%Z -> exists p, get_vertex g i = Ok (i, p)).
    { intros i Hi. destruct (get_vertex_ok g i) as ((z & p) & N & G); [apply has_vertex_spec; exact Hi|].
      exists p. rewrite G. f_equal. f_equal. apply (map_nth_error fst) in N. rewrite W1 in N. unfold zseq in N. cbn [fst] in N.
      assert (M := map_nth_error Z.of_nat (Z.to_nat i) (seq 0 (List.length (g_verts g)))).
      assert (Ns : nth_error (seq 0 (List.length (g_verts g))) (Z.to_nat i) = Some (Z.to_nat i)).
      { rewrite (nth_error_nth' _ 0%nat) by (rewrite seq_length; lia). f_equal. rewrite seq_nth by lia. reflexivity. }
      rewrite (M _ Ns) in N. injection N as <-. lia. }
    destruct (G (fst e)) as (p1 & ->); [lia|]. destruct (G (snd e)) as (p2 & ->); [lia|]. cbn [bind fst].
    rewrite !Hids by lia. cbn [snd].
    assert (A : add_edge (mkGraph (map conv (g_verts g)) l0) (fst e) (snd e) = Ok (mkGraph (map conv (g_verts g)) (l0 ++ [e]))).
    { unfold add_edge, has_vertex. cbn [g_verts g_edges]. rewrite map_length.
      rewrite (proj2 (Z.leb_le 0 (fst e))), (proj2 (Z.leb_le 0 (snd e))), (proj2 (Z.ltb_lt (fst e) _)), (proj2 (Z.ltb_lt (snd e) _)) by lia.
      cbn [andb negb orb]. f_equal. f_equal.
      replace (if (fst e <? snd e)%Z then (fst e, snd e) else (snd e, fst e)) with e.
      - apply set_insert_last. rewrite Hl in W2. clear - W2. apply Forall_forall. intros x Hx.
        induction l0 as [|y r IH]; [destruct Hx|]. cbn [app] in W2. apply StronglySorted_inv in W2. destruct W2 as [W2 Wy].
        destruct Hx as [->|Hx]; [|auto]. rewrite Forall_forall in Wy. apply Wy. apply in_or_app. right; left; reflexivity.
      - destruct e as [u w]. cbn [fst snd] in *. destruct (Z.ltb_spec u w); [reflexivity|]. f_equal; lia. }
    rewrite A. apply IH. rewrite Hl, <- app_assoc. reflexivity. }
  apply (K (g_edges g) []). reflexivity.
Qed.
End LocalGraph.

Section Collector.
Context {F : Type} {NF : Num F}.
Lemma alookup_ainsert {V : Type} k k1 (v : V) l : alookup k (ainsert k1 v l) =
  match alookup k l with Some w => Some w | None => if String.eqb k k1 then Some v else None end.
Proof.
  unfold ainsert, amem. destruct (alookup k1 l) eqn:E.
  - destruct (alookup k l) eqn:E2; [reflexivity|]. destruct (String.eqb_spec k k1) as [->|]; [congruence|reflexivity].
  - rewrite alookup_app. cbn [alookup]. reflexivity.
Qed.
(** first element with a key *)
Definition find_key {A : Type} (key : A -> string) (k : string) (l : list A) : option A := find (fun x => String.eqb (key x) k) l.
Lemma find_first {A : Type} (q : A -> bool) l x : find q l = Some x -> first_with (fun y => q y = true) l x.
Proof.
  induction l as [|y t IH]; cbn [find]; [discriminate|]. destruct (q y) eqn:E.
  - intros H. injection H as ->. exists [], t. auto.
  - intros H. destruct (IH H) as (pre & post & -> & Hx & Hp). exists (y :: pre), post. split; [reflexivity|]. split; [exact Hx|].
    constructor; [congruence|exact Hp].
Qed.
Lemma find_key_first {A : Type} (key : A -> string) k l x : find_key key k l = Some x -> first_with (fun y => key y = k) l x.
Proof.
  intros H. apply find_first in H. destruct H as (pre & post & E & Hx & Hp). exists pre, post. split; [exact E|]. split; [apply String.eqb_eq, Hx|].
  eapply Forall_impl; [|exact Hp]. cbn. intros y Hy E1. apply Hy. apply String.eqb_eq. exact E1.
Qed.
Lemma find_key_none {A : Type} (key : A -> string) k l : find_key key k l = None -> forall x, In x l -> key x <> k.
Proof. intros H x Hx E. assert (N := find_none _ _ H x Hx). cbn in N. apply String.eqb_neq in N. auto. Qed.
Lemma tx_map_find (txs : list (transmitter F)) : forall m k, alookup k (fold_left (fun m t => ainsert (t_id t) t m) txs m) =
  match alookup k m with Some w => Some w | None => find_key (@t_id F) k txs end.
Proof.
  induction txs as [|t r IH]; intros m k; cbn [fold_left find_key find].
  - destruct (alookup k m); reflexivity.
  - rewrite IH, alookup_ainsert. destruct (alookup k m); [reflexivity|]. rewrite String.eqb_sym. unfold find_key. cbn [find].
    destruct (String.eqb (t_id t) k); reflexivity.
Qed.
Lemma find_key_map {A B : Type} (key : A -> string) (key' : B -> string) (f : A -> B) k l : (forall x, key' (f x) = key x) ->
  find_key key' k (map f l) = option_map f (find_key key k l).
Proof. intros H. unfold find_key. induction l as [|x t IH]; cbn [map find]; [reflexivity|]. rewrite H. destruct (String.eqb _ _); [reflexivity|exact IH]. Qed.
Lemma level_tx g (l : level F) tx : local_level g = Ok l -> l_id l = gl_id g /\
  alookup tx (l_txs l) = option_map (local_tx (get_binding g) (gl_alt g)) (find_key (@gt_id F) tx (gl_txs g)).
Proof.
  unfold local_level. intros H. inv_bind H. injection Hb as <-. cbn [l_id l_txs]. split; [reflexivity|].
  unfold tx_map. rewrite tx_map_find. cbn [alookup]. apply find_key_map. reflexivity.
Qed.
Theorem transmitter_exact g (l : level F) tx : local_level g = Ok l ->
  (exists t, first_with (fun t => gt_id t = tx) (gl_txs g) t /\ contains_tx l tx = true /\ get_tx l tx = Ok (local_tx (get_binding g) (gl_alt g) t)) \/
  ((forall t, In t (gl_txs g) -> gt_id t <> tx) /\ contains_tx l tx = false /\ get_tx l tx = Throw).
Proof.
  intros H. destruct (level_tx g tx H) as [_ E]. unfold contains_tx, amem, get_tx. rewrite E.
  destruct (find_key (@gt_id F) tx (gl_txs g)) as [t|] eqn:Ef; cbn [option_map at_or_throw].
  - left. exists t. split; [apply find_key_first, Ef|auto].
  - right. split; [apply find_key_none, Ef|auto].
Qed.
(** reference points *)
Lemma index_from_find {A : Type} (key : A -> string) (l : list A) : forall i acc k, alookup k (index_from key i l acc) =
  match alookup k acc with Some w => Some w | None => 
    match find (fun xi => String.eqb (key (fst xi)) k) (number i l) with Some xi => Some (snd xi) | None => None end end.
Proof.
  induction l as [|x t IH]; intros i acc k; cbn [index_from number find].
  - destruct (alookup k acc); reflexivity.
  - rewrite IH, alookup_ainsert. destruct (alookup k acc); [reflexivity|]. rewrite String.eqb_sym. cbn [fst snd]. destruct (String.eqb (key x) k); reflexivity.
Qed.
Lemma number_find {A : Type} (q : A -> bool) (l : list A) : forall i,
  match find (fun xi => q (fst xi)) (number i l) with
  | Some (x, j) => find q l = Some x /\ (i <= j)%nat /\ nth_error l (j - i) = Some x
  | None => find q l = None end.
Proof.
  induction l as [|x t IH]; intros i; cbn [number find fst]; [reflexivity|].
  destruct (q x) eqn:E; [rewrite Nat.sub_diag; auto|]. specialize (IH (S i)).
  destruct (find _ (number (S i) t)) as [[y j]|]; [|exact IH]. destruct IH as (A1 & A2 & A3). split; [exact A1|]. split; [lia|].
  replace (j - i)%nat with (S (j - S i)) by lia. exact A3.
Qed.
Theorem refpoint_exact (rps : list (refpoint F)) rid :
  (exists r, first_with (fun r => rp_id r = rid) rps r /\ has_rp (mk_radiomap rps) rid = true /\ get_rp (mk_radiomap rps) rid = Ok r) \/
  ((forall r, In r rps -> rp_id r <> rid) /\ has_rp (mk_radiomap rps) rid = false /\ get_rp (mk_radiomap rps) rid = Throw).
Proof.
  unfold has_rp, amem, get_rp, mk_radiomap. cbn [rm_index rm_points]. rewrite index_from_find. cbn [alookup].
  assert (N := number_find (fun x => String.eqb (rp_id x) rid) rps 0).
  destruct (find _ (number 0 rps)) as [[x j]|]; cbn [snd at_or_throw bind].
  - destruct N as (A1 & _ & A3). rewrite Nat.sub_0_r in A3. rewrite A3. left. exists x. split; [apply find_key_first, A1|auto].
  - right. split; [apply find_key_none, N|auto].
Qed.
(** levels *)
Lemma add_levels_inv (gs : list (geolevel F)) : forall c c', add_geo_levels c gs = Ok c' ->
  exists ls, Forall2 (fun g l => local_level g = Ok l) gs ls /\ col_levels c' = col_levels c ++ ls /\
    forall k, alookup k (col_index c') = match alookup k (col_index c) with Some w => Some w | None =>
      match find (fun xi => String.eqb (gl_id (fst xi)) k) (number (List.length (col_levels c)) gs) with Some xi => Some (snd xi) | None => None end end.
Proof.
  induction gs as [|g t IH]; intros c c' H.
  - injection H as <-. exists []. rewrite app_nil_r. split; [constructor|]. split; [reflexivity|]. intros k. cbn. destruct (alookup k (col_index c)); reflexivity.
  - unfold add_geo_levels in H. cbn [fold_left bind] in H. destruct (add_geo_level c g) as [c1| | |] eqn:E;
      try (exfalso; clear - H; match type of H with fold_left _ _ ?z = _ => assert (Z : forall r, fold_left (fun acc g => y <- acc ;; add_geo_level y g) t z = Ok r -> False) end;
        [induction t as [|g' t' IHt]; intros r Hr; [discriminate|cbn [fold_left bind] in Hr; eapply IHt; eauto]|eapply Z; exact H]).
    unfold add_geo_level in E. inv_bind E. injection Hb as <-. destruct (IH _ _ H) as (ls & F2 & L & Ix). cbn [col_levels col_index] in *.
    exists (a :: ls). split; [constructor; assumption|]. split; [rewrite L, <- app_assoc; reflexivity|].
    intros k. rewrite Ix, alookup_ainsert. destruct (alookup k (col_index c)); [reflexivity|].
    rewrite app_length. cbn [List.length number find fst snd]. rewrite Nat.add_1_r, String.eqb_sym. replace (S (List.length (col_levels c)) - 1)%nat with (List.length (col_levels c)) by lia.
    destruct (String.eqb (gl_id g) k); reflexivity.
Qed.
Lemma find_forall2 {A B : Type} (r : A -> B -> Prop) (q : A -> bool) (q' : B -> bool) l l' : Forall2 r l l' -> (forall a b, r a b -> q a = q' b) ->
  (exists x y, find q l = Some x /\ find q' l' = Some y /\ r x y) \/ (find q l = None /\ find q' l' = None).
Proof.
  intros H E. induction H as [|a b l l' Hab H IH]; cbn [find]; [auto|]. rewrite (E _ _ Hab). destruct (q' b); [left; eauto|exact IH].
Qed.
Lemma forall2_nth {A B : Type} (r : A -> B -> Prop) l l' : Forall2 r l l' -> forall n x, nth_error l n = Some x -> exists y, nth_error l' n = Some y /\ r x y.
Proof. induction 1 as [|a b l l1 Hab H IH]; intros [|n] x Hx; cbn in Hx; try discriminate; [injection Hx as <-; exists b; auto|exact (IH n x Hx)]. Qed.
Theorem collector_exact (gs : list (geolevel F)) c : add_geo_levels col0 gs = Ok c ->
  Forall2 (fun g l => local_level g = Ok l) gs (col_levels c) /\
  (forall id, (exists g l, first_with (fun g => gl_id g = id) gs g /\ local_level g = Ok l /\ has_level c id = true /\ get_level c id = Ok l) \/
     ((forall g, In g gs -> gl_id g <> id) /\ has_level c id = false /\ get_level c id = Throw)) /\
  (forall tx, (exists g, first_with (fun g => In tx (map (@gt_id F) (gl_txs g))) gs g /\ find_level_by_tx c tx = Some (gl_id g)) \/
     ((forall g, In g gs -> ~ In tx (map (@gt_id F) (gl_txs g))) /\ find_level_by_tx c tx = None)).
Proof.
  intros H. destruct (add_levels_inv _ _ H) as (ls & F2 & L & Ix). cbn [col0 col_levels col_index app List.length alookup] in L, Ix.
  rewrite L. split; [exact F2|]. split.
  - intros id. unfold has_level, amem, get_level. rewrite Ix.
    assert (N := number_find (fun x => String.eqb (gl_id x) id) gs 0).
    destruct (find _ (number 0 gs)) as [[x j]|]; cbn [snd at_or_throw bind].
    + destruct N as (A1 & _ & A3). rewrite Nat.sub_0_r in A3. destruct (forall2_nth F2 _ A3) as (l & A4 & A5).
      left. exists x, l. rewrite L, A4. split; [apply find_key_first, A1|auto].
    + right. split; [apply find_key_none, N|auto].
  - intros tx. unfold find_level_by_tx. rewrite L.
    set (q := fun g : geolevel F => existsb (String.eqb tx) (map (@gt_id F) (gl_txs g))).
    assert (Q : forall g, q g = true <-> In tx (map (@gt_id F) (gl_txs g))).
    { intros g. unfold q. rewrite existsb_exists. split; [intros (y & Hy & E); apply String.eqb_eq in E; subst; exact Hy|intros Hy; exists tx; split; [exact Hy|apply String.eqb_refl]]. }
    destruct (find_forall2 q (fun l => contains_tx l tx) F2) as [(g & l & E1 & E2 & E3)|(E1 & E2)].
    + intros g l Hl. destruct (@transmitter_exact g l tx Hl) as [(t & (pre & post & Et & Hid & _) & C & _)|(Hn & C & _)]; rewrite C.
      * apply Q. rewrite Et, map_app. apply in_or_app. right. left. exact Hid.
      * destruct (q g) eqn:Eq; [|reflexivity]. apply Q, in_map_iff in Eq. destruct Eq as (t & Et & Ht). exfalso. exact (Hn t Ht Et).
    + left. exists g. rewrite E2. destruct (level_tx g tx E3) as [-> _]. split; [|reflexivity].
      apply find_first in E1. destruct E1 as (pre & post & E & Hx & Hp). exists pre, post. split; [exact E|]. split; [apply Q, Hx|].
      eapply Forall_impl; [|exact Hp]. cbn. intros y Hy Hi. apply Hy, Q, Hi.
    + right. rewrite E2. split; [|reflexivity]. intros g Hg Hi. apply Q in Hi. assert (N := find_none _ _ E1 g Hg). congruence.
Qed.
Theorem collector_total (gs : list (geolevel F)) : Forall (fun g => graph_built (gl_graph g)) gs -> exists c, add_geo_levels col0 gs = Ok c.
Proof.
  unfold add_geo_levels. generalize (col0 : collector F). induction gs as [|g t IH]; intros c H; [eexists; reflexivity|].
  assert (Ht := Forall_inv_tail H). apply Forall_inv in H. cbn [fold_left bind]. unfold add_geo_level at 2, local_level.
  rewrite (local_graph_exact _ H). cbn [bind]. apply IH, Ht.
Qed.
End Collector.

(** ** C43 *)
Section BarrierProof.
Context {Path Poly Ring Bx : Type}.
Context (outer_covers : Path -> Poly -> bool) (inners : Poly -> list Ring)
        (envelope : Ring -> Bx) (hit_box : Path -> Bx -> bool) (hit_ring : Path -> Ring -> bool).
Lemma number_in {A : Type} (l : list A) : forall i x j, In (x, j) (number i l) <-> (i <= j)%nat /\ nth_error l (j - i) = Some x.
Proof.
  induction l as [|y t IH]; intros i x j; cbn [number In].
  - split; [tauto|]. intros [_ H]. destruct (j - i)%nat; discriminate.
  - rewrite IH. split.
    + intros [E|[H1 H2]]; [injection E as -> ->; rewrite Nat.sub_diag; auto|]. split; [lia|]. replace (j - i)%nat with (S (j - S i)) by lia. exact H2.
    + intros [H1 H2]. destruct (Nat.eq_dec i j) as [->|N]; [rewrite Nat.sub_diag in H2; injection H2 as ->; auto|].
      right. split; [lia|]. replace (j - i)%nat with (S (j - S i)) in H2 by lia. exact H2.
Qed.
Theorem barriers_exact (area : list Poly) (path : Path) :
  (forall z r, In z area -> In r (inners z) -> hit_ring path r = true -> hit_box path (envelope r) = true) ->
  (path_touches_barriers outer_covers inners envelope hit_box hit_ring area path = true <->
   (forall z, In z area -> outer_covers path z = false) \/ exists z r, In z area /\ In r (inners z) /\ hit_ring path r = true).
Proof.
  intros Hs. unfold path_touches_barriers.
  assert (I : forall l acc, fold_left (fun acc z => if outer_covers path z then true else acc) l acc = acc || existsb (outer_covers path) l).
  { induction l as [|z t IH]; intros acc; cbn [fold_left existsb]; [rewrite orb_false_r; reflexivity|]. rewrite IH. destruct (outer_covers path z), acc; reflexivity. }
  rewrite I. cbn [orb]. destruct (existsb (outer_covers path) area) eqn:E; cbn [negb].
  - rewrite existsb_exists. split.
    + intros ((bx & j) & Hin & Hh). apply filter_In in Hin. destruct Hin as [Hin _]. cbn [snd] in Hh. right.
      destruct (nth_error (inner_barriers inners area) j) as [r|] eqn:En; [|discriminate]. apply nth_error_In in En.
      unfold inner_barriers in En. apply in_flat_map in En. destruct En as (z & Hz & Hr). eauto.
    + intros [H|(z & r & Hz & Hr & Hh)].
      * apply existsb_exists in E. destruct E as (z & Hz & Ez). rewrite (H z Hz) in Ez. discriminate.
      * assert (In r (inner_barriers inners area)) by (apply in_flat_map; eauto).
        apply In_nth_error in H. destruct H as (j & Hj). exists (envelope r, j). cbn [fst snd]. split; [|rewrite Hj; exact Hh].
        apply filter_In. split; [|cbn; eapply Hs; eauto]. unfold box_indices. apply in_map_iff. exists (r, j). split; [reflexivity|].
        apply number_in. rewrite Nat.sub_0_r. split; [lia|exact Hj].
  - split; [|reflexivity]. intros _. left. intros z Hz. destruct (outer_covers path z) eqn:Ez; [|reflexivity].
    assert (X : existsb (outer_covers path) area = true) by (apply existsb_exists; eauto). congruence.
Qed.
End BarrierProof.
Section BarrierSets.
Context {Path Poly Ring : Type}.
Context (outer_covers : Path -> Poly -> bool) (inners : Poly -> list Ring)
        (envelope : Ring -> pt * pt) (hit_box : Path -> pt * pt -> bool) (hit_ring : Path -> Ring -> bool).
Context (on_path : Path -> pt -> Prop) (in_ring : Ring -> pt -> Prop).
Theorem barriers_sets :
  (forall r p, in_ring r p -> in_rbox (envelope r) p) ->
  (forall w r, hit_ring w r = true <-> exists p, on_path w p /\ in_ring r p) ->
  (forall w b, hit_box w b = true <-> exists p, on_path w p /\ in_rbox b p) ->
  forall area path, path_touches_barriers outer_covers inners envelope hit_box hit_ring area path = true <->
   (forall z, In z area -> outer_covers path z = false) \/
   exists z r p, In z area /\ In r (inners z) /\ on_path path p /\ in_ring r p.
Proof.
  intros He Hr Hb area path. rewrite barriers_exact.
  - split; (intros [H|H]; [left; exact H|right]).
    + destruct H as (z & r & Hz & Hi & Hh). apply Hr in Hh. destruct Hh as (p & A & B). exists z, r, p. auto.
    + destruct H as (z & r & p & Hz & Hi & A & B). exists z, r. split; [exact Hz|]. split; [exact Hi|]. apply Hr. eauto.
  - intros z r _ _ H. apply Hr in H. destruct H as (p & A & B). apply Hb. eauto.
Qed.
End BarrierSets.
Lemma built_real (g : graph (XY RX)) vs : graph_built g -> map snd (g_verts g) = map rx_pt vs -> real_graph g vs.
Proof.
  intros B H. split; [exact H|]. destruct (graph_wf_built B) as (_ & _ & W). intros e He. specialize (W e He).
  rewrite !has_vertex_spec. lia.
Qed.
