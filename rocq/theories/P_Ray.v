(** C97: points on segments, rays, lines and areas. *)
From Coq Require Import Reals Lra.
From Verif Require Import Lib NumReal NumFloat LibR Ray Spec_Post Spec_Geo Spec_Ray Pf_Post Pf_Geo Pf_Ray Ex.
Local Open Scope string_scope.
Local Open Scope list_scope.
#[local] Existing Instance nf.

(** PointOnLine accepts every point of the segment, and only points within 0.11 mm of it *)
Theorem C97_point_on_line (p a b : pt) :
  (forall k, (0 <= k <= 1)%R -> p = along a b k -> on_segment p a b = true) /\
  (on_segment p a b = true -> exists k, (0 <= k <= 1)%R /\ (pdist p (along a b k) <= 11 / 100000)%R).
Proof. split; [intros k H ->; apply segment_points, H|apply on_segment_near]. Qed.
Print Assumptions C97_point_on_line.
(** it does accept points off the segment: for a segment of length zero, all points within 0.1 mm *)
Theorem C97_on_line_refuted : exists p a b : pt, on_segment p a b = true /\ forall k, (0 <= k <= 1)%R -> p <> along a b k.
Proof.
  exists (1 / 20000, 0)%R, (0, 0)%R, (0, 0)%R. split.
  - apply on_segment_real. unfold cross, eps; cbn [fst snd]. split; [|lra]. unfold Rabs. destruct (Rcase_abs _); lra.
  - intros k Hk E. unfold along in E; cbn [fst snd] in E. injection E as E. lra.
Qed.
Print Assumptions C97_on_line_refuted.

(** XRayIntersectsLine says whether the horizontal ray to the right of [p] meets
    the segment, end points at the height of [p] being lifted first; the segment
    may lie up to 1e-8 divided by its height to the left of [p] *)
Theorem C97_ray (p a b a' b' : pt) : lifted p a a' -> lifted p b b' ->
  ray_hits p a b = true <-> right_of p a' b' (eps / Rabs (snd b' - snd a')).
Proof. exact (@ray_exact p a b a' b'). Qed.
Print Assumptions C97_ray.
Theorem C97_ray_symmetric (p a b : pt) : ray_hits p a b = ray_hits p b a.
Proof. exact (ray_sym p a b). Qed.
Print Assumptions C97_ray_symmetric.
(** from a point to the left of a polygon the ray meets an even number of sides, also through vertices *)
Theorem C97_ray_even (p : pt) vs : Forall (fun q => (fst p <= fst q)%R) vs ->
  Nat.Even (List.length (filter (fun s => ray_hits p (fst s) (snd s)) (sides vs))).
Proof. exact (@polygon_even p vs). Qed.
Print Assumptions C97_ray_even.
(** the tolerance has no bound: a ray that starts 40 cm to the right of a segment is said to meet it *)
Theorem C97_ray_right_refuted : exists p a b : pt, ray_hits p a b = true /\ forall k, (0 <= k <= 1)%R -> (fst (along a b k) + 2 / 5 <= fst p)%R.
Proof.
  exists (2 / 5, 0)%R, (0, -1 / 100000000)%R, (0, 1 / 100000000)%R. split.
  - assert (L : forall y, (eps <= Rabs (0 - y))%R -> lifted (2 / 5, 0)%R (0, y)%R (0, y)%R) by (intros y Hy; right; auto).
    assert (L1 := L (-1 / 100000000)%R ltac:(unfold eps, Rabs; destruct (Rcase_abs _); lra)).
    assert (L2 := L (1 / 100000000)%R ltac:(unfold eps, Rabs; destruct (Rcase_abs _); lra)).
    apply (C97_ray _ _ _ _ _ L1 L2).
    exists (1 / 2)%R. cbn [fst snd along]. unfold along, eps; cbn [fst snd]. split; [lra|]. split; [lra|].
    rewrite Rabs_pos_eq by lra. replace (1 / 100000000 / (1 / 100000000 - -1 / 100000000))%R with (1 / 2)%R by lra. lra.
  - intros k _. unfold along; cbn [fst snd]. lra.
Qed.
Print Assumptions C97_ray_right_refuted.

Example C97_ray_example :
  let tri := [(fofZ 0, fofZ 0); (fofZ 4, fofZ 2); (fofZ 0, fofZ 4)] : list (SF * SF) in
  let count x y := List.length (filter (fun s => let '((x1, y1), (x2, y2)) := s in xray_intersects_line x y x1 y1 x2 y2) (combine tri (tl tri ++ firstn 1 tri))) in
  count (fofZ 1) (fofZ 1) = 1%nat /\ count (fofZ (-1)) (fofZ 1) = 2%nat /\ count (fofZ 1) (fofZ 2) = 1%nat /\ count (fofZ (-1)) (fofZ 2) = 2%nat /\
  count (fofZ 5) (fofZ 2) = 0%nat /\ point_on_line (fofZ 2) (fofZ 1) (fofZ 0) (fofZ 0) (fofZ 4) (fofZ 2 : SF) = true /\
  point_on_line (fofZ 6) (fofZ 3) (fofZ 0) (fofZ 0) (fofZ 4) (fofZ 2 : SF) = false.
Proof. vm_compute. repeat split. Qed.
Example C97_polygon_example : Forall (fun q => (fst (-1, 2) <= fst q)%R) [(0, 0); (4, 2); (0, 4)]%R /\ lifted (-1, 2)%R (4, 2)%R (4, 2 + 1 / 10000)%R /\ lifted (-1, 2)%R (0, 4)%R (0, 4)%R.
Proof.
  split; [repeat (apply Forall_cons; [cbn; lra|]); apply Forall_nil|]. unfold lifted, eps. cbn [fst snd]. split.
  - left. split; [|reflexivity]. unfold Rabs. destruct (Rcase_abs _); lra.
  - right. split; [|reflexivity]. unfold Rabs. destruct (Rcase_abs _); lra.
Qed.

(** the distance to a line is the least distance to its points *)
Theorem C97_line_distance l (a b c : pt) : (eps <= pdist a b)%R -> exists d, line_dist (loc l a) (loc l b) (loc l c) = Some d /\
  (exists k, d = pdist c (along a b k)) /\ (forall k, (d <= pdist c (along a b k))%R).
Proof. exact (@line_exact l a b c). Qed.
Print Assumptions C97_line_distance.
(** and undefined for points of different levels or a line through two points that are almost the same *)
Theorem C97_line_undefined la lb lc (a b c : pt) : line_dist (loc la a) (loc lb b) (loc lc c) = None <-> la <> lb \/ la <> lc \/ (pdist a b < eps)%R.
Proof.
  destruct (String.eqb_spec la lb) as [->|N1].
  - destruct (String.eqb_spec lb lc) as [->|N2].
    + rewrite line_dist_real. destruct (Rleb eps (pdist a b)) eqn:E; [apply Rleb_true in E|apply Rleb_false in E].
      * split; [discriminate|]. intros [H|[H|H]]; [contradiction..|lra].
      * split; [auto|reflexivity].
    + split; [auto|]. intros _. unfold line_dist, loc. cbn [fst snd]. apply String.eqb_neq in N2. rewrite N2, orb_true_r. reflexivity.
  - split; [auto|]. intros _. unfold line_dist, loc. cbn [fst snd]. apply String.eqb_neq in N1. rewrite N1. reflexivity.
Qed.
Print Assumptions C97_line_undefined.
Theorem C97_distance la lb lc (a b c : pt) :
  (la <> lb -> get_dist_lp (loc la a) (loc lb b) = None) /\
  exists d e f, get_dist_lp (loc la a) (loc la b) = Some d /\ get_dist_lp (loc la b) (loc la a) = Some d /\ (d * d = len2 a b)%R /\ (0 <= d)%R /\
    get_dist_lp (loc la b) (loc la c) = Some e /\ get_dist_lp (loc la a) (loc la c) = Some f /\ (f <= d + e)%R /\ (lc = la -> get_dist_lp (loc la a) (loc lc b) = Some d).
Proof.
  split; [intros N; unfold get_dist_lp, loc; cbn [fst snd]; apply String.eqb_neq in N; rewrite N; reflexivity|].
  assert (G : forall u v, get_dist_lp (loc la u) (loc la v) = Some (pdist u v)).
  { intros u v. unfold get_dist_lp, loc. cbn [fst snd px py rx_pt]. rewrite String.eqb_refl, get_dist_real. reflexivity. }
  exists (pdist a b), (pdist b c), (pdist a c). rewrite !G, (pdist_sym b a). repeat split.
  - apply pdist_len2.
  - apply sqrt_pos.
  - apply pdist_triangle.
  - intros ->. apply G.
Qed.
Print Assumptions C97_distance.
(** the area of a triangle: half of base times height, positive for a counterclockwise one *)
Theorem C97_area l (a b c : pt) d : line_dist (loc l a) (loc l b) (loc l c) = Some d -> exists s,
  get_area_lp (loc l a) (loc l b) (loc l c) = Some s /\ (Rabs s = pdist a b * d / 2)%R /\
  get_area_lp (loc l b) (loc l a) (loc l c) = Some (- s)%R /\ get_area_lp (loc l b) (loc l c) (loc l a) = Some s.
Proof.
  assert (G : forall u v w, get_area_lp (loc l u) (loc l v) (loc l w) = Some (cross u v w / 2)%R).
  { intros u v w. unfold get_area_lp, loc. cbn [fst snd px py rx_pt]. rewrite String.eqb_refl. cbn [negb orb]. apply area_real. }
  intros H. rewrite line_dist_real in H. destruct (Rleb eps (pdist a b)) eqn:E; [|discriminate]. apply Rleb_true in E. injection H as <-.
  rewrite !G. exists (cross a b c / 2)%R. split; [reflexivity|]. assert (P := eps_pos). split; [|split].
  - unfold Rdiv at 1. rewrite Rabs_mult, (Rabs_pos_eq (/ 2)) by lra. field. lra.
  - f_equal. unfold cross. field.
  - f_equal. unfold cross. field.
Qed.
Print Assumptions C97_area.
Theorem C97_area_levels la lb lc (a b c : pt) : (get_area_lp (loc la a) (loc lb b) (loc lc c) = None <-> la <> lb \/ la <> lc) /\
  (forall l, get_area_lp (loc l (0, 0)%R) (loc l (1, 0)%R) (loc l (0, 1)%R) = Some (1 / 2)%R).
Proof.
  split.
  - unfold get_area_lp, loc. cbn [fst snd px py rx_pt]. rewrite area_real. destruct (String.eqb_spec la lb), (String.eqb_spec la lc); cbn [negb orb];
      (split; [intros H; try discriminate; auto|intros H; try reflexivity; destruct H; contradiction]).
  - intros l. unfold get_area_lp, loc. cbn [fst snd px py rx_pt]. rewrite String.eqb_refl. cbn [negb orb]. transitivity (Some (cross (0, 0)%R (1, 0)%R (0, 1)%R / 2)%R : RX); [exact (area_real (0, 0)%R (1, 0)%R (0, 1)%R)|]. f_equal. unfold cross. cbn [fst snd]. lra.
Qed.
Print Assumptions C97_area_levels.
(** the 3x3 determinant: the function of the rows that is linear in the first,
    changes its sign when two are swapped and is 1 at the unit matrix *)
Definition row3 := (R * R * R)%type.
Theorem C97_determinant : exists f : row3 -> row3 -> row3 -> R,
  (forall a b c d e g h i j : R, det3 (Some a : RX) (Some b) (Some c) (Some d) (Some e) (Some g) (Some h) (Some i) (Some j) = Some (f (a, b, c) (d, e, g) (h, i, j))) /\
  (forall a b c a' b' c' s r2 r3, f (a + s * a', b + s * b', c + s * c') r2 r3 = f (a, b, c) r2 r3 + s * f (a', b', c') r2 r3)%R /\
  (forall r1 r2 r3, f r2 r1 r3 = - f r1 r2 r3 /\ f r1 r3 r2 = - f r1 r2 r3)%R /\ f (1, 0, 0)%R (0, 1, 0)%R (0, 0, 1)%R = 1%R.
Proof.
  exists (fun '(a, b, c) '(d, e, g) '(h, i, j) => a * (e * j - g * i) - b * (d * j - g * h) + c * (d * i - e * h))%R. split; [|split; [|split]].
  - intros. unfold det3. rewrite !rx_mul, !rx_add, rx_sub. f_equal. ring.
  - intros a b c a' b' c' s [[d e] g] [[h i] j]. ring.
  - intros [[a b] c] [[d e] g] [[h i] j]. split; ring.
  - ring.
Qed.
Print Assumptions C97_determinant.
Example C97_line_example : (eps <= pdist (0, 0) (3, 4))%R /\
  line_dist ("A", mkXY f0 f0) ("A", mkXY (fofZ 3) (fofZ 4)) ("A", mkXY (fofZ 4) (fofZ (-3)) : XY SF) = fofZ 5 /\
  get_area_lp ("A", mkXY f0 f0) ("A", mkXY (fofZ 3) (fofZ 4)) ("A", mkXY (fofZ 4) (fofZ (-3)) : XY SF) = lit (-25) 2 /\
  fisnan (line_dist ("A", mkXY f0 f0) ("B", mkXY (fofZ 3) (fofZ 4)) ("A", mkXY (fofZ 4) (fofZ (-3)) : XY SF)) = true /\
  get_dist_lp ("A", mkXY f0 f0) ("A", mkXY (fofZ 3) (fofZ 4) : XY SF) = fofZ 5.
Proof.
  split; [|repeat split; vm_compute; reflexivity].
  replace (pdist (0, 0) (3, 4)) with 5%R; [unfold eps; lra|]. unfold pdist, rdist. cbn [fst snd]. symmetry. apply sqrt_lem_1; lra.
Qed.
