(** C94, C95: the polygons of a level: its bounding box, its place on the
    globe, and the area on which positions are allowed. *)
From Coq Require Import Reals Lra Lia.
From Verif Require Import Lib NumReal NumFloat SortInst LevelModel Smooth Tools Spec_Post Spec_Geo Spec_Tools Pf_Geo Pf_Tools Pf_ToolsF Outline Spec_Outline
  Pf_Wind Pf_Outline Pf_Outline2 Pf_Outline3 Pf_Outline4 Ex.
Local Open Scope string_scope.
Local Open Scope list_scope.
Local Open Scope R_scope.
#[local] Existing Instance nf. #[local] Existing Instance isorter.

(** ** C94 *)
(** the bounding box of a level is the smallest box around its outer rings *)
Theorem C94_box (ss : list rshape) : ss <> [] -> Forall (fun s => fst s <> []) ss ->
  exists b, fst (level_geom (map rx_poly ss)) = mkBox (rx_pt (fst b)) (rx_pt (snd b)) /\ least_box b (outline ss).
Proof. intros N H. destruct (geometry_box N H) as (b & E & _ & L). exists b. split; [exact E|exact L]. Qed.
Print Assumptions C94_box.

(** a level read from a map file has the polygons of the first feature that
    describes it *)
Theorem C94_file (fuel : nat) (ord : list (Z * Geo RX) -> list (Z * Geo RX)) (fs : list (jfeature RX (list (poly RX)))) (gs : list (geolevel RX))
    (g : geolevel RX) (ss : list rshape) :
  parse_geojson level_geom fuel ord fs = Ok gs -> In g gs -> first_with (is_level (gl_id g)) fs (JLevel (gl_id g) (map rx_poly ss)) -> outlined g ss.
Proof.
  intros E I F. destruct (geojson_exact _ _ _ _ E) as (_ & _ & H). destruct (H g I) as (_ & (a & Fa & Eb & Ea) & _).
  assert (X := first_unique F Fa). injection X as <-. split; assumption.
Qed.
Print Assumptions C94_file.

(** away from the poles and the antimeridian, the origin of a level's
    coordinates is the corner of its box with the least latitude and longitude;
    the level's local box reaches from there and holds every place of the
    geographic box, in particular the whole outline and all allowed places *)
Theorem C94_local (g : geolevel RX) (l : level RX) (b : pt * pt) (ss cs : list rshape) :
  outlined g ss -> local_level g = Ok l -> drawn_level b ss cs ->
  exists hi, l_bind l = rx_geo (fst b) /\ l_box l = mkBox (rx_pt (0, 0)) (rx_pt hi) /\
    (forall p, in_rbox b p -> exists q, gps_to_local (rx_geo p) (l_bind l) = rx_pt q /\ in_rbox ((0, 0), hi) q) /\
    (forall p, In p (outline ss) -> in_rbox b p) /\
    (forall c p, In c cs -> in_shape c p -> in_rbox b p).
Proof.
  intros O L D. destruct (local_outline O L D) as (hi & A & B & C & E). exists hi. do 3 (split; [assumption|]). split; [|exact E].
  destruct D as (_ & _ & _ & [X _] & _). exact X.
Qed.
Print Assumptions C94_local.

(** ** C95 *)
(** the test of a closed ring tells inside, border and outside apart *)
Theorem C95_ring (r : list pt) (p : pt) : closed r ->
  (on_ring r p /\ ring_code (rx_pt p) (rx_ring r) = 0%Z) \/ (encloses r p /\ ring_code (rx_pt p) (rx_ring r) = 1%Z) \/
  (~ on_ring r p /\ ~ encloses r p /\ ring_code (rx_pt p) (rx_ring r) = (-1)%Z).
Proof. exact (@code_spec r p). Qed.
Print Assumptions C95_ring.
(** whichever ray one takes, if it passes no corner *)
Theorem C95_any_ray (r : list pt) (p e : pt) (n : Z) : closed r -> ~ on_ring r p -> free_ray r p e -> crossings p e r n ->
  (encloses r p <-> n <> 0%Z).
Proof. exact (@any_ray r p e n). Qed.
Print Assumptions C95_any_ray.
(** and there is one *)
Theorem C95_some_ray (r : list pt) (p : pt) : closed r -> exists e n, free_ray r p e /\ crossings p e r n.
Proof. exact (@crossings_exist r p). Qed.
Print Assumptions C95_some_ray.

(** neither the direction in which a ring is drawn nor its first point matters *)
Theorem C95_drawing (p : pt) :
  (forall r, closed r -> (encloses (rev r) p <-> encloses r p) /\ ring_code (rx_pt p) (rx_ring (rev r)) = ring_code (rx_pt p) (rx_ring r)) /\
  (forall a m b n, let r := a :: m ++ b :: n ++ [a] in let r' := b :: n ++ a :: m ++ [b] in closed r ->
     (encloses r' p <-> encloses r p) /\ ring_code (rx_pt p) (rx_ring r') = ring_code (rx_pt p) (rx_ring r)).
Proof.
  assert (G : forall r r', closed r -> closed r' -> rcode p r' = rcode p r -> (encloses r' p <-> encloses r p)).
  { intros r r' C C' E. destruct (code_spec p C) as [[H X]|[[H X]|(H & H' & X)]]; destruct (code_spec p C') as [[K Y]|[[K Y]|(K & K' & Y)]]; rewrite X, Y in E; try discriminate; try tauto.
    split; intros Z; exfalso; exact (encloses_off Z ltac:(assumption)). }
  split.
  - intros r C. split; [|exact (code_rev p C)]. apply G; [exact C|apply closed_rev, C|apply code_rev, C].
  - intros a m b n r r' C. assert (X := @code_rotate a m b n p C). split; [|exact X]. apply G; [exact C| |exact X].
    split; [|exists b, (n ++ a :: m); unfold r'; rewrite <- app_assoc; reflexivity].
    destruct C as [L _]. unfold r, r' in *. cbn [List.length] in *. rewrite !app_length in *. cbn [List.length] in *. rewrite !app_length in *. cbn [List.length] in *. lia.
Qed.
Print Assumptions C95_drawing.

(** the allowed area of a level: a place is allowed exactly when it lies in one
    of the polygons of the map file; and every allowed pair of local coordinates
    is such a place *)
Theorem C95_level (g : geolevel RX) (l : level RX) (b : pt * pt) (ss cs : list rshape) :
  outlined g ss -> local_level g = Ok l -> drawn_level b ss cs ->
  (forall p q, lon_range (snd p - snd (fst b)) -> gps_to_local (rx_geo p) (l_bind l) = rx_pt q ->
     (l_allowed l (Some (fst q)) (Some (snd q)) = true <-> exists c, In c cs /\ in_shape c p)) /\
  (forall q, l_allowed l (Some (fst q)) (Some (snd q)) = true ->
     exists p c, gps_to_local (rx_geo p) (l_bind l) = rx_pt q /\ In c cs /\ in_shape c p).
Proof. exact (@local_allowed g l b ss cs). Qed.
Print Assumptions C95_level.

(** a straight way that touches no ring does not change whether one is allowed *)
Theorem C95_move (g : geolevel RX) (l : level RX) (b : pt * pt) (ss cs : list rshape) (p1 p2 q1 q2 : pt) :
  outlined g ss -> local_level g = Ok l -> drawn_level b ss cs ->
  lon_range (snd p1 - snd (fst b)) -> lon_range (snd p2 - snd (fst b)) ->
  gps_to_local (rx_geo p1) (l_bind l) = rx_pt q1 -> gps_to_local (rx_geo p2) (l_bind l) = rx_pt q2 ->
  (forall c r, In c cs -> In r (fst c :: snd c) -> apart r p1 p2) ->
  l_allowed l (Some (fst q1)) (Some (snd q1)) = l_allowed l (Some (fst q2)) (Some (snd q2)).
Proof.
  intros O L D H1 H2 E1 E2 A. destruct (local_allowed O L D) as [G _]. apply eq_true_iff_eq. rewrite (G _ _ H1 E1), (G _ _ H2 E2).
  assert (X : forall c, In c cs -> (in_shape c p1 <-> in_shape c p2)).
  { intros c I. destruct D as (D & Ap & _).
    assert (Cl : closed_shape c). { clear - D I. induction D as [|s0 c0 ss cs D0 _ IH]; [destruct I|]. destruct I as [->|I]; [exact (drawn_is_closed D0)|exact (IH I)]. }
    assert (Ac := proj1 (Forall_forall _ _) Ap c I). rewrite <- (scode_shape p1 Cl Ac), <- (scode_shape p2 Cl Ac).
    rewrite (@scode_move c p1 p2 Cl); [tauto|apply (A c), or_introl; auto|]. apply Forall_forall. intros h Hh. apply (A c); [exact I|right; exact Hh]. }
  split; intros (c & I & S); exists c; (split; [exact I|]); apply (X c I), S.
Qed.
Print Assumptions C95_move.

(** a rectangle covers exactly its points *)
Theorem C95_rectangle (x0 y0 x1 y1 : R) (p : pt) : x0 < x1 -> y0 < y1 ->
  (in_shape ([(x0, y0); (x1, y0); (x1, y1); (x0, y1); (x0, y0)], []) p <-> x0 <= fst p <= x1 /\ y0 <= snd p <= y1).
Proof. intros Hx Hy. exact (@rectangle_shape ((x0, y0), (x1, y1)) p Hx Hy). Qed.
Print Assumptions C95_rectangle.

(** with barriers on, the smoother leaves a position where it is, repeats a
    stored one that is not older, or moves it to a place in one of the polygons *)
Theorem C95_smoother (g : geolevel RX) (l : level RX) (b : pt * pt) (ss cs : list rshape) (s : settings RX) (m m' : smoother RX) (p r : position RX) :
  outlined g ss -> local_level g = Ok l -> drawn_level b ss cs -> s_barriers s = true -> sm_smooth s (l_allowed l) m p = Ok (m', r) ->
  (p_x r = p_x p /\ p_y r = p_y p) \/ (exists a, m = SAB a /\ (p_ts p <= p_ts (ab_pos a))%Z /\ r = ab_pos a) \/
  (exists x c, gps_to_local (rx_geo x) (l_bind l) = mkXY (p_x r) (p_y r) /\ In c cs /\ in_shape c x).
Proof.
  intros O L D Hb E. destruct (@smooth_allowed s (l_allowed l) m p m' r Hb E) as [H|[H|(x & y & -> & -> & Ha)]]; [auto|auto|].
  right. right. exact (proj2 (local_allowed O L D) (x, y) Ha).
Qed.
Print Assumptions C95_smoother.

(** ** An example: ten degrees square with a hole, drawn with open rings *)
Definition ex_out : list pt := [(0, 0); (10, 0); (10, 10); (0, 10)].
Definition ex_hole : list pt := [(4, 4); (6, 4); (6, 6); (4, 6)].
Definition ex_ss : list rshape := [(ex_out, [ex_hole])].
Definition ex_cs : list rshape := [(rectangle ((0, 0), (10, 10)), [rectangle ((4, 4), (6, 6))])].
Definition ex_lvl : geolevel RX := mkGeoLevel "1" [] [] (fst (level_geom (map rx_poly ex_ss))) (snd (level_geom (map rx_poly ex_ss))) (mkGraph [] []) (Some 100).
Lemma ex_drawn : drawn_level ((0, 0), (10, 10)) ex_ss ex_cs.
Proof.
  split; [|split; [|split; [|split; [|split; [|split]]]]].
  - constructor; [|constructor]. split; [|constructor; [|constructor]]; (split; [apply rectangle_closed|right]).
    + exists (0, 0), [(10, 0); (10, 10); (0, 10)]. split; [reflexivity|]. split; [cbn; intros X; injection X; lra|reflexivity].
    + exists (4, 4), [(6, 4); (6, 6); (4, 6)]. split; [reflexivity|]. split; [cbn; intros X; injection X; lra|reflexivity].
  - constructor; [|constructor]. intros h1 h2 p [<-|[]] [<-|[]] _ _. reflexivity.
  - discriminate.
  - split.
    + intros p [<-|[<-|[<-|[<-|[]]]]]; unfold in_rbox; cbn [fst snd]; lra.
    + intros c H. assert (A := H (0, 0) (or_introl eq_refl)). assert (B := H (10, 10) (or_intror (or_intror (or_introl eq_refl)))). split; assumption.
  - cbn [fst snd]. lra.
  - cbn [fst snd]. lra.
  - intros s x [<-|[]] I. cbn in I. unfold lon_range. cbn [fst snd]. repeat (destruct I as [<-|I]; [cbn [fst snd]; lra|]). destruct I.
Qed.
Example C94_example : exists l, outlined ex_lvl ex_ss /\ local_level ex_lvl = Ok l /\ drawn_level ((0, 0), (10, 10)) ex_ss ex_cs /\ l_bind l = rx_geo (0, 0).
Proof.
  eexists. split; [split; reflexivity|]. split; [reflexivity|]. split; [exact ex_drawn|].
  destruct (@C94_local ex_lvl _ _ _ _ (conj eq_refl eq_refl) eq_refl ex_drawn) as (hi & E & _). exact E.
Qed.
Definition ex_fs : list (jfeature RX (list (poly RX))) := [JLevel "1" (map rx_poly ex_ss)].
Example C94_file_example : exists gs g, parse_geojson level_geom 5 (fun l => l) ex_fs = Ok gs /\ In g gs /\
  first_with (is_level (gl_id g)) ex_fs (JLevel (gl_id g) (map rx_poly ex_ss)) /\ outlined g ex_ss.
Proof.
  eexists. eexists. split; [reflexivity|]. split; [left; reflexivity|].
  split; [|split; reflexivity]. exists [], []. split; [reflexivity|]. split; [eexists; reflexivity|constructor].
Qed.
Example C95_example : exists l, local_level ex_lvl = Ok l /\
  (forall p q, In p [(2, 2); (4, 5); (0, 3)] -> gps_to_local (rx_geo p) (l_bind l) = rx_pt q -> l_allowed l (Some (fst q)) (Some (snd q)) = true) /\
  (forall p q, In p [(5, 5); (11, 2); (-1, 5)] -> gps_to_local (rx_geo p) (l_bind l) = rx_pt q -> l_allowed l (Some (fst q)) (Some (snd q)) = false).
Proof.
  eexists. split; [reflexivity|].
  destruct (@C95_level ex_lvl _ _ _ _ (conj eq_refl eq_refl) eq_refl ex_drawn) as [G _].
  assert (Sh : forall p, in_shape (rectangle ((0, 0), (10, 10)), [rectangle ((4, 4), (6, 6))]) p <->
     (in_rbox ((0, 0), (10, 10)) p /\ ~ (4 < fst p < 6 /\ 4 < snd p < 6))).
  { intros p. apply (@frame_shape ((0, 0), (10, 10)) ((4, 4), (6, 6))); unfold in_rbox; cbn [fst snd]; lra. }
  set (l := mkLevel _ _ _ _ _ _ _) in *.
  assert (G' : forall p q, -180 < snd p <= 180 -> gps_to_local (rx_geo p) (l_bind l) = rx_pt q ->
    (l_allowed l (Some (fst q)) (Some (snd q)) = true <-> (in_rbox ((0, 0), (10, 10)) p /\ ~ (4 < fst p < 6 /\ 4 < snd p < 6)))).
  { intros p q Hp E. rewrite <- Sh. rewrite (G p q); [|unfold lon_range; cbn [fst snd]; lra|exact E].
    split; [intros (c & [<-|[]] & H); exact H|]. intros H. eexists. split; [left; reflexivity|exact H]. }
  clearbody l.
  split; intros p q I E; specialize (G' p q); unfold in_rbox in G'; cbn [fst snd] in G'; repeat (destruct I as [<-|I]); try destruct I; cbn [fst snd] in G'.
  1-3: apply G'; [lra|exact E|lra].
  all: apply not_true_iff_false; intros Hx; apply G' in Hx; [lra|lra|exact E].
Qed.
Definition ex_bars : settings RX := @ex_post RX (mkOpts false true true false false false true (Some 10)) (@ex_zones RX num_real false).
Example C95_smoother_example : exists l m' r, outlined ex_lvl ex_ss /\ local_level ex_lvl = Ok l /\ drawn_level ((0, 0), (10, 10)) ex_ss ex_cs /\
  s_barriers ex_bars = true /\
  sm_smooth ex_bars (l_allowed l) (SAB (mkAB true (Some 1) (Some 0) (mkPos (Some 5) (Some 5) "1" (Some 1) 0 false INDOOR (Some 0)))) (mkPos (Some 7) (Some 6) "1" (Some 1) 1000 false INDOOR (Some 0)) = Ok (m', r).
Proof.
  destruct (local_level ex_lvl) as [l| | |] eqn:El; [|discriminate El..]. exists l.
  match goal with |- context [sm_smooth ?s ?a (SAB ?m) ?p] => unfold sm_smooth; destruct (ab_smooth s a m p) as [a' p'] end.
  exists (SAB a'), p'. split; [split; reflexivity|]. split; [reflexivity|]. split; [exact ex_drawn|]. split; reflexivity.
Qed.

(** a ring that is not convex, and a ray through two of its sides *)
Definition ex_horns : list pt := [(0, 0); (6, 0); (6, 6); (3, 2); (0, 6); (0, 0)].
Example C95_ring_example : closed ex_horns /\ on_ring ex_horns (3, 2) /\ encloses ex_horns (1, 1) /\
  free_ray ex_horns (-1, 3) (1, 0) /\ crossings (-1, 3) (1, 0) ex_horns 0 /\ ~ on_ring ex_horns (-1, 3) /\ ~ encloses ex_horns (-1, 3).
Proof.
  assert (C : closed ex_horns) by (split; [cbn; lia|]; exists (0, 0), [(6, 0); (6, 6); (3, 2); (0, 6)]; reflexivity).
  assert (Off : forall p, ((fst p = -1 /\ snd p = 3) \/ (fst p = 1 /\ snd p = 1)) -> ~ on_ring ex_horns p).
  { intros p Hp (a & c & E & k & K & S). destruct p as [x y]. cbn [fst snd] in Hp. unfold ex_horns in E.
    repeat (apply edge_inv in E; destruct E as [[-> ->]|E]; [unfold along in S; cbn [fst snd] in S; injection S as S1 S2; nra|]). destruct (edge_one E). }
  assert (N := Off (-1, 3) (or_introl (conj eq_refl eq_refl))).
  assert (F : free_ray ex_horns (-1, 3) (1, 0)).
  { split; [intros X; injection X; lra|]. intros a s Ha S E. unfold ray in E. cbn [fst snd] in E. cbn in Ha. repeat (destruct Ha as [<-|Ha]; [injection E as E1 E2; lra|]). destruct Ha. }
  assert (Cr : crossings (-1, 3) (1, 0) ex_horns 0).
  { assert (X : crossings (-1, 3) (1, 0) ex_horns (0 + (1 + (-1 + (1 + (-1 + 0)))))); [|exact X]. unfold ex_horns. repeat apply cs_more; [| | | | |apply cs_one].
    - apply cr_none. intros s k S K E. unfold along, ray in E. cbn [fst snd] in E. injection E as E1 E2. nra.
    - apply (@cr_left _ _ _ _ 7 (1 / 2)); [lra|lra| |unfold turns_left; cbn [fst snd]; lra]. unfold along, ray. cbn [fst snd]. f_equal; field.
    - apply (@cr_right _ _ _ _ (19 / 4) (3 / 4)); [lra|lra| |unfold turns_left; cbn [fst snd]; lra]. unfold along, ray. cbn [fst snd]. f_equal; field.
    - apply (@cr_left _ _ _ _ (13 / 4) (1 / 4)); [lra|lra| |unfold turns_left; cbn [fst snd]; lra]. unfold along, ray. cbn [fst snd]. f_equal; field.
    - apply (@cr_right _ _ _ _ 1 (1 / 2)); [lra|lra| |unfold turns_left; cbn [fst snd]; lra]. unfold along, ray. cbn [fst snd]. f_equal; field. }
  split; [exact C|]. split.
  { exists (6, 6), (3, 2). split; [exists [(0, 0); (6, 0)], [(0, 6); (0, 0)]; reflexivity|]. exists 1. split; [lra|]. unfold along. cbn [fst snd]. f_equal; ring. }
  split.
  { assert (N1 := Off (1, 1) (or_intror (conj eq_refl eq_refl))). split; [exact N1|]. exists (1, 0), 1%Z. split; [|split; [|lia]].
    - split; [intros X; injection X; lra|]. intros a s Ha S E. unfold ray in E. cbn [fst snd] in E. cbn in Ha. repeat (destruct Ha as [<-|Ha]; [injection E as E1 E2; lra|]). destruct Ha.
    - assert (X : crossings (1, 1) (1, 0) ex_horns (0 + (1 + (0 + (0 + (0 + 0)))))); [|exact X]. unfold ex_horns. repeat apply cs_more; [| | | | |apply cs_one];
        try (apply cr_none; intros s k S K E; unfold along, ray in E; cbn [fst snd] in E; injection E as E1 E2; nra).
      apply (@cr_left _ _ _ _ 5 (1 / 6)); [lra|lra| |unfold turns_left; cbn [fst snd]; lra]. unfold along, ray. cbn [fst snd]. f_equal; field. }
  split; [exact F|]. split; [exact Cr|]. split; [exact N|]. rewrite (C95_any_ray _ _ _ _ C N F Cr). lia.
Qed.

(** overlapping holes: a point strictly inside one hole and on the border of the
    one listed before it counts as allowed *)
Theorem C95_holes_refuted : exists c p, Forall closed (fst c :: snd c) /\ ~ in_shape c p /\ shape_code (rx_pt p) (rx_shape c) <> (-1)%Z /\
  exists h, In h (snd c) /\ encloses h p.
Proof.
  set (b := ((0, 0), (10, 10)) : pt * pt). set (h1 := ((2, 2), (5, 5)) : pt * pt). set (h2 := ((4, 4), (8, 8)) : pt * pt).
  exists (rectangle b, [rectangle h1; rectangle h2]), (5, 9 / 2).
  assert (E : encloses (rectangle h2) (5, 9 / 2)) by (apply rectangle_encloses; unfold strictly_in, h2; cbn [fst snd]; lra).
  assert (Eb : encloses (rectangle b) (5, 9 / 2)) by (apply rectangle_encloses; unfold strictly_in, b; cbn [fst snd]; lra).
  assert (O : on_ring (rectangle h1) (5, 9 / 2)) by (apply rectangle_border; unfold in_rbox, strictly_in, h1; cbn [fst snd]; lra).
  split; [repeat constructor; apply rectangle_closed|]. split; [|split].
  - intros [H|[_ H]]; [exact (encloses_off Eb H)|]. exact (H _ (or_intror (or_introl eq_refl)) E).
  - change (scode (5, 9 / 2) (rectangle b, [rectangle h1; rectangle h2]) <> (-1)%Z). rewrite scode_eq. cbn [fst snd map].
    destruct (code_spec (5, 9 / 2) (rectangle_closed b)) as [[X _]|[[_ X]|(_ & X & _)]]; [destruct (encloses_off Eb X)|rewrite X|contradiction].
    destruct (code_spec (5, 9 / 2) (rectangle_closed h1)) as [[_ Y]|[[Y _]|(Y & _)]]; [rewrite Y|destruct (encloses_off Y O)|contradiction]. cbn. lia.
  - exists (rectangle h2). split; [right; left; reflexivity|exact E].
Qed.
Print Assumptions C95_holes_refuted.

(** a level across the antimeridian: the width of its box is normalised away,
    and a corner of the outline falls outside the local box *)
Definition ex_date : list rshape := [([(0, - 179.5); (1, -179); (1, 179.5)], [])].
Definition ex_date_lvl : geolevel RX := mkGeoLevel "1" [] [] (fst (level_geom (map rx_poly ex_date))) (snd (level_geom (map rx_poly ex_date))) (mkGraph [] []) (Some 100).
Theorem C94_antimeridian_refuted : exists g l ss bx p q, outlined g ss /\ local_level g = Ok l /\ (forall x, In x (outline ss) -> -90 < fst x < 90 /\ -180 < snd x < 180) /\
  l_box l = mkBox (rx_pt (fst bx)) (rx_pt (snd bx)) /\ In p (outline ss) /\ gps_to_local (rx_geo p) (l_bind l) = rx_pt q /\ ~ in_rbox bx q.
Proof.
  destruct (@geometry_box ex_date ltac:(discriminate) ltac:(repeat constructor; discriminate)) as (b & Eb & O & L1 & L2).
  assert (b = ((0, - 179.5), (1, 179.5))).
  { assert (X1 := L1 (0, - 179.5) (or_introl eq_refl)). assert (X2 := L1 (1, 179.5) (or_intror (or_intror (or_introl eq_refl)))).
    destruct (L2 ((0, - 179.5), (1, 179.5))) as [Y1 Y2]; [intros p [<-|[<-|[<-|[]]]]; unfold in_rbox; cbn [fst snd]; lra|].
    unfold in_rbox in *. destruct b as [[b1 b2] [b3 b4]]. cbn [fst snd] in *. repeat f_equal; lra. }
  subst b. set (b := ((0, - 179.5), (1, 179.5)) : pt * pt) in *.
  assert (Cp : 0 < circ_at (fst b)) by (apply circ_pos; cbn [fst snd b]; lra).
  assert (Bd : get_binding ex_date_lvl = rx_geo (fst b)).
  { unfold get_binding. cbn [ex_date_lvl gl_box]. change (fst (level_geom (map rx_poly ex_date))) with (snd (get_geometry (map rx_poly ex_date))). rewrite Eb, (correct_ordered O). reflexivity. }
  assert (Bx : correct_box (local_box (rx_geo (fst b)) (gl_box ex_date_lvl)) = rx_box ((- (circ_at (fst b) / 360), 0), (0, 40008000 / 360))).
  { cbn [ex_date_lvl gl_box]. change (fst (level_geom (map rx_poly ex_date))) with (snd (get_geometry (map rx_poly ex_date))). rewrite Eb.
    unfold local_box. change (mkGeo (px (bmin (rx_box b))) (py (bmin (rx_box b)))) with (rx_geo (fst b)). change (mkGeo (px (bmax (rx_box b))) (py (bmax (rx_box b)))) with (rx_geo (snd b)).
    rewrite !gps_to_local_real.
    assert (R0 : rnorm (snd (fst b) - snd (fst b)) = 0) by (destruct (rnorm_cases (snd (fst b) - snd (fst b))) as [[? ->]|[[? ->]|[? ->]]]; cbn [fst snd b] in *; lra).
    assert (R1 : rnorm (snd (snd b) - snd (fst b)) = -1) by (destruct (rnorm_cases (snd (snd b) - snd (fst b))) as [[? ->]|[[? ->]|[? ->]]]; cbn [fst snd b] in *; lra).
    rewrite R0, R1. unfold correct_box, rx_box, rx_pt. cbn [px py bmin bmax fst snd]. rewrite !rx_ltb.
    assert (A1 : Rltb (-1 * (circ_at (fst b) / 360)) (0 * (circ_at (fst b) / 360)) = true) by (apply Rltb_true; lra). rewrite A1.
    assert (A2 : Rltb ((fst (snd b) - fst (fst b)) * (40008000 / 360)) ((fst (fst b) - fst (fst b)) * (40008000 / 360)) = false) by (apply Rltb_false; cbn [fst snd b]; lra). rewrite A2.
    cbn [fst snd b]. f_equal; f_equal; f_equal; field. }
  exists ex_date_lvl. eexists. exists ex_date, ((- (circ_at (fst b) / 360), 0), (0, 40008000 / 360)), (1, -179), (1 / 2 * (circ_at (fst b) / 360), 40008000 / 360).
  split; [split; reflexivity|]. split; [reflexivity|]. split; [intros x [<-|[<-|[<-|[]]]]; cbn [fst snd]; lra|].
  cbn [l_box l_bind]. rewrite Bd. split; [exact Bx|]. split; [right; left; reflexivity|]. split.
  - rewrite gps_to_local_real.
    assert (R2 : rnorm (snd (1, -179) - snd (fst b)) = 1 / 2) by (destruct (rnorm_cases (snd (1, -179) - snd (fst b))) as [[? ->]|[[? ->]|[? ->]]]; cbn [fst snd b] in *; lra).
    rewrite R2. f_equal. f_equal. cbn [fst snd b]. ring.
  - unfold in_rbox. cbn [fst snd]. lra.
Qed.
Print Assumptions C94_antimeridian_refuted.

(** a level without polygons is accepted; its box is all there is, and its only
    transmitter is placed at infinity (doubles) *)
Definition ex_void : list (jfeature SF (list (poly SF))) :=
  [JLevel "1" []; JTx "1" "a" TBEACON (@fofZ SF nf 10) (@fofZ SF nf 20) None None None].
Theorem C94_empty_refuted : exists gs g l t, parse_geojson level_geom 5 (fun l => l) ex_void = Ok gs /\ In g gs /\ local_level g = Ok l /\
  map snd (l_txs l) = [t] /\ fisfinite (zy (t_pt t)) = false /\ (forall x y, l_allowed l x y = false).
Proof.
  eexists. eexists. eexists. eexists. split; [reflexivity|]. split; [left; reflexivity|]. split; [reflexivity|]. split; [reflexivity|].
  split; [vm_compute; reflexivity|]. intros x y. reflexivity.
Qed.
Print Assumptions C94_empty_refuted.
