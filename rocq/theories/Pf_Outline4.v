(** Proofs about level outlines (C94, C95): geographic and local coordinates,
    rectangles. *)
From Coq Require Import Reals Lra Lia Psatz Permutation.
From Verif Require Import Lib NumReal LevelModel Smooth Spec_Post Spec_Geo Pf_Geo Outline Spec_Outline Pf_Wind Pf_Outline Pf_Outline2 Pf_Outline3.
Set Implicit Arguments.
Local Open Scope R_scope.
Local Open Scope list_scope.

(** ** Exchanging and scaling the axes *)
Section Swap.
Context (k1 k2 la lo : R) (H1 : 0 < k1) (H2 : 0 < k2).
Definition swp (g : pt) : pt := (k1 * (snd g - lo), k2 * (fst g - la)).
Definition lin (u : pt) : pt := (k1 * snd u, k2 * fst u).
Lemma swp_vsub a p : vsub (swp a) (swp p) = lin (vsub a p).
Proof. unfold vsub, swp, lin. cbn [fst snd]. f_equal; ring. Qed.
Lemma swp_along a b k : swp (along a b k) = along (swp a) (swp b) k.
Proof. unfold along, swp. cbn [fst snd]. f_equal; ring. Qed.
Lemma swp_inj a b : swp a = swp b -> a = b.
Proof.
  unfold swp. destruct a as [a1 a2], b as [b1 b2]. cbn [fst snd]. intros E. injection E as E1 E2.
  apply Rmult_eq_reg_l in E1; [|lra]. apply Rmult_eq_reg_l in E2; [|lra]. f_equal; lra.
Qed.
Lemma swp_segment p a b : on_segment (swp p) (swp a) (swp b) <-> on_segment p a b.
Proof.
  split; intros (k & K & E); exists k; (split; [exact K|]).
  - apply swp_inj. rewrite swp_along. exact E.
  - rewrite E. apply swp_along.
Qed.
Lemma swp_on r p : on_ring (map swp r) (swp p) <-> on_ring r p.
Proof.
  induction r as [|a [|b t] IH].
  - split; intros (x & y & E & _); destruct (edge_nil E).
  - split; intros X; destruct (on_ring_one X).
  - cbn [map] in *. rewrite !on_ring_cons, swp_segment, IH. tauto.
Qed.
Lemma lin_cr a b : cr (lin a) (lin b) = - (k1 * k2) * cr a b.
Proof. unfold cr, lin. cbn [fst snd]. ring. Qed.
Lemma sg_lin_cr a b : sg (cr (lin a) (lin b)) = (- sg (cr a b))%Z.
Proof. rewrite lin_cr. rewrite sg_mul, sg_neg by nra. lia. Qed.
Lemma lin_dt e u : e <> (0, 0) -> cr e u = 0 -> sg (dt (lin e) (lin u)) = sg (dt e u).
Proof.
  intros Ne C. destruct (factor Ne C) as (k & -> & S). rewrite S.
  replace (dt (lin e) (lin (k * fst e, k * snd e))) with (k * (k1 * k1 * (snd e * snd e) + k2 * k2 * (fst e * fst e))) by (unfold dt, lin; cbn [fst snd]; ring).
  rewrite sg_mul, (@sg_pos (_ + _)); [lia|].
  destruct e as [e1 e2]. cbn [fst snd]. assert (0 < k1 * k1) by nra. assert (0 < k2 * k2) by nra.
  destruct (Req_dec e1 0) as [->|]; [|assert (0 < e1 * e1) by nra; nra]. destruct (Req_dec e2 0) as [->|]; [congruence|]. assert (0 < e2 * e2) by nra. nra.
Qed.
Lemma lin_half e u v : e <> (0, 0) -> half (lin e) (lin u) (lin v) = (- half e u v)%Z.
Proof.
  intros Ne. unfold half. rewrite !sg_lin_cr. assert (Du := @lin_dt e u Ne). assert (Dv := @lin_dt e v Ne). rewrite <- !sg0 in *.
  destruct (sg_case (cr e u)) as [[_ X]|[[_ X]|[_ X]]]; destruct (sg_case (cr e v)) as [[_ Y]|[[_ Y]|[_ Y]]]; rewrite X, Y in *;
    rewrite ?(Du eq_refl), ?(Dv eq_refl); destruct (sg_case (cr u v)) as [[_ ->]|[[_ ->]|[_ ->]]]; unfold halfz; cbn; try reflexivity;
    match goal with |- context [(0 <? ?z)%Z] => destruct (0 <? z)%Z; reflexivity end.
Qed.
Lemma lin_wsum e p r : e <> (0, 0) -> wsum (lin e) (swp p) (map swp r) = (- wsum e p r)%Z.
Proof.
  intros Ne. induction r as [|a [|b t] IH]; [reflexivity|reflexivity|]. cbn [map] in *. rewrite !wsum_cons, IH, !swp_vsub, lin_half by exact Ne. lia.
Qed.
Lemma closed_map r : closed r -> closed (map swp r).
Proof. intros (L & a & m & ->). split; [rewrite map_length; exact L|]. exists (swp a), (map swp m). cbn [map]. rewrite map_app. reflexivity. Qed.
Theorem code_swp r p : closed r -> rcode (swp p) (map swp r) = rcode p r.
Proof.
  intros C. apply code_same; [apply closed_map, C|exact C|apply swp_on|]. rewrite swp_on. intros N.
  set (e := (- / k2, 0) : pt). assert (P : 0 < / k2) by (apply Rinv_0_lt_compat, H2).
  assert (Ne : e <> (0, 0)) by (unfold e; intros X; injection X; lra).
  assert (E : lin e = down) by (unfold lin, e, down; cbn [fst snd]; f_equal; [ring|field; lra]).
  assert (W := lin_wsum p r Ne). rewrite E, (wsum_dir Ne C N) in W. rewrite W. lia.
Qed.
Lemma scode_swp s p : closed_shape s -> scode (swp p) (map swp (fst s), map (map swp) (snd s)) = scode p s.
Proof.
  intros [C H]. rewrite !scode_eq. cbn [fst snd]. rewrite (code_swp p C).
  assert (E : map (rcode (swp p)) (map (map swp) (snd s)) = map (rcode p) (snd s)); [|rewrite E; reflexivity].
  rewrite map_map. apply map_ext_in. intros h I. apply code_swp. exact (proj1 (Forall_forall _ _) H h I).
Qed.
End Swap.

(** ** The allowed area of a level *)
Definition kx (b : pt) : R := circ_at b / 360.
Definition ky : R := 40008000 / 360.
Lemma gps_swp g b : lon_range (snd g - snd b) -> gps_to_local (rx_geo g) (rx_geo b) = rx_pt (swp (kx b) ky (fst b) (snd b) g).
Proof.
  intros H. rewrite gps_to_local_real. unfold swp, kx, ky. f_equal. f_equal; [|ring].
  destruct (rnorm_cases (snd g - snd b)) as [[X E]|[[X E]|[X E]]]; rewrite E; unfold lon_range in H; [lra|lra|ring] || ring || lra.
Qed.
Lemma local_ring_real b c : (forall x, In x c -> lon_range (snd x - snd b)) -> local_ring (rx_geo b) (rx_ring c) = rx_ring (map (swp (kx b) ky (fst b) (snd b)) c).
Proof.
  intros H. unfold local_ring, rx_ring. rewrite !map_map. apply map_ext_in. intros x I.
  change (mkGeo (px (rx_pt x)) (py (rx_pt x))) with (rx_geo x). apply gps_swp, H, I.
Qed.
Lemma correct_ordered b : ordered b -> correct_box (rx_box b) = rx_box b.
Proof.
  intros [X Y]. unfold correct_box, rx_box, rx_pt. cbn [px py bmin bmax]. rewrite !rx_ltb.
  rewrite (proj2 (Rltb_false _ _) X), (proj2 (Rltb_false _ _) Y). reflexivity.
Qed.
Lemma circ_pos b : -90 < fst b < 90 -> 0 < circ_at b.
Proof. intros H. unfold circ_at. assert (P := PI_RGT_0). assert (C : 0 < cos (fst b * PI / 180)) by (apply cos_gt_0; nra). lra. Qed.

Lemma like_in c c' x : like c c' -> In x c' -> In x c.
Proof. intros [-> | ->] H; [exact H|apply in_rev in H; exact H]. Qed.
Lemma drawn_in r c x : drawn r c -> (In x c <-> In x r).
Proof. intros [_ [->|(a & m & -> & _ & ->)]]; [tauto|]. rewrite in_app_iff. cbn [In]. tauto. Qed.
Lemma alike_points s s' x : alike s s' -> In x (all_points s') -> In x (all_points s).
Proof.
  intros [L F] H. unfold all_points in *. apply in_app_or in H. apply in_or_app. destruct H as [H|H]; [left; exact (like_in _ L H)|right].
  clear L. induction F as [|c c' l l' Lc _ IH]; [exact H|]. cbn [List.concat] in *. apply in_app_or in H. apply in_or_app.
  destruct H as [H|H]; [left; exact (like_in _ Lc H)|right; exact (IH H)].
Qed.
Lemma drawn_points s c x : drawn_shape s c -> In x (all_points c) -> In x (all_points s).
Proof.
  intros [D F] H. unfold all_points in *. apply in_app_or in H. apply in_or_app. destruct H as [H|H]; [left; apply (drawn_in x D), H|right].
  clear D. induction F as [|r k l l' Lc _ IH]; [exact H|]. cbn [List.concat] in *. apply in_app_or in H. apply in_or_app.
  destruct H as [H|H]; [left; apply (drawn_in x Lc), H|right; exact (IH H)].
Qed.
Lemma local_shape_real b s : closed_shape s -> (forall x, In x (all_points s) -> lon_range (snd x - snd b)) ->
  local_shape (rx_geo b) (rx_shape s) = correct_shape (rx_shape (map (swp (kx b) ky (fst b) (snd b)) (fst s), map (map (swp (kx b) ky (fst b) (snd b))) (snd s))).
Proof.
  intros C H. unfold local_shape. f_equal. unfold rx_shape. cbn [sh_outer sh_inners fst snd]. f_equal.
  - apply local_ring_real. intros x I. apply H, in_or_app. left. exact I.
  - rewrite !map_map. apply map_ext_in. intros h I. apply local_ring_real. intros x Ix. apply H, in_or_app. right.
    apply in_concat. exists h. auto.
Qed.
Lemma closed_shape_map f s : (forall r, closed r -> closed (map f r)) -> closed_shape s -> closed_shape (map f (fst s), map (map f) (snd s)).
Proof. intros H [C F]. split; cbn [fst snd]; [apply H, C|]. apply Forall_forall. intros h I. apply in_map_iff in I. destruct I as (h' & <- & I). apply H. exact (proj1 (Forall_forall _ _) F h' I). Qed.
(** a corrected shape, corrected again, is alike *)
Lemma correct_again s : closed_shape s -> exists s', correct_shape (rx_shape s) = rx_shape s' /\ alike s s'.
Proof. intros C. apply correct_alike, closed_drawn_shape, C. Qed.

Theorem level_shape b ss cs g : ordered b -> snd (get_geometry (map rx_poly ss)) = rx_box b -> -90 < fst (fst b) < 90 ->
  Forall2 drawn_shape ss cs -> (forall s x, In s ss -> In x (all_points s) -> lon_range (snd x - snd (fst b))) ->
  let q := swp (kx (fst b)) ky (fst (fst b)) (snd (fst b)) g in
  (snd (level_geom (map rx_poly ss)) (Some (fst q)) (Some (snd q)) = true <-> exists c, In c cs /\ scode g c <> (-1)%Z).
Proof.
  intros O Eb Lat D Lon q. unfold level_geom. unfold get_geometry in *. cbn [snd] in *. rewrite Eb. cbn [snd].
  unfold local_area. rewrite (correct_ordered O). change (mkGeo (px (bmin (rx_box b))) (py (bmin (rx_box b)))) with (rx_geo (fst b)).
  unfold q. clear q.
  set (T := swp (kx (fst b)) ky (fst (fst b)) (snd (fst b))). change (mkXY (Some (fst (T g))) (Some (snd (T g)))) with (rx_pt (T g)).
  assert (K1 : 0 < kx (fst b)) by (unfold kx; assert (C := circ_pos (fst b) Lat); lra). assert (K2 : 0 < ky) by (unfold ky; lra).
  unfold covered_by_area. rewrite existsb_exists.
  assert (One : forall s c, drawn_shape s c -> (forall x, In x (all_points s) -> lon_range (snd x - snd (fst b))) ->
    shape_code (rx_pt (T g)) (correct_shape (local_shape (rx_geo (fst b)) (correct_shape (shape_of (rx_poly s))))) = scode g c).
  { intros s c Dsc Hx. rewrite shape_rx. destruct (correct_alike Dsc) as (c1 & E1 & A1). rewrite E1.
    assert (C0 := drawn_is_closed Dsc). assert (C1 := alike_closed C0 A1).
    rewrite local_shape_real; [|exact C1|intros x I; apply Hx; apply (@drawn_points _ _ x Dsc); exact (@alike_points _ _ x A1 I)].
    fold T. set (c2 := (map T (fst c1), map (map T) (snd c1))).
    assert (C2 : closed_shape c2) by (apply closed_shape_map; [intros r; apply closed_map|exact C1]).
    destruct (correct_again C2) as (c3 & E3 & A3). rewrite E3. assert (C3 := alike_closed C2 A3).
    destruct (correct_again C3) as (c4 & E4 & A4). rewrite E4.
    change (shape_code (rx_pt (T g)) (rx_shape c4)) with (scode (T g) c4). rewrite (alike_code _ C3 A4), (alike_code _ C2 A3).
    unfold c2, T. rewrite (scode_swp _ _ K1 K2 g C1). apply alike_code; assumption. }
  clear Eb. rewrite !map_map. split.
  - intros (x & I & N). apply in_map_iff in I. destruct I as (s & <- & I). cbv beta in N.
    assert (X : exists c, In c cs /\ drawn_shape s c).
    { clear - D I. induction D as [|s0 c0 ss cs D0 _ IH]; [destruct I|]. destruct I as [->|I]; [exists c0; cbn; auto|]. destruct (IH I) as (c & Ic & Dc). exists c. cbn. auto. }
    destruct X as (c & Ic & Dc). exists c. split; [exact Ic|]. rewrite (One s c Dc (fun x => Lon s x I)) in N. apply negb_true_iff, Z.eqb_neq in N. exact N.
  - intros (c & Ic & N).
    assert (X : exists s, In s ss /\ drawn_shape s c).
    { clear - D Ic. induction D as [|s0 c0 ss cs D0 _ IH]; [destruct Ic|]. destruct Ic as [->|I]; [exists s0; cbn; auto|]. destruct (IH I) as (s & Is & Ds). exists s. cbn. auto. }
    destruct X as (s & Is & Ds). eexists. split; [apply in_map_iff; exists s; split; [reflexivity|exact Is]|]. cbv beta.
    rewrite (One s c Ds (fun x => Lon s x Is)). apply negb_true_iff, Z.eqb_neq, N.
Qed.
(** the local box *)
Lemma local_box_real (b : pt * pt) : ordered b -> -90 < fst (fst b) < 90 -> snd (snd b) - snd (fst b) <= 180 ->
  correct_box (local_box (rx_geo (fst b)) (rx_box b)) = rx_box (swp (kx (fst b)) ky (fst (fst b)) (snd (fst b)) (fst b), swp (kx (fst b)) ky (fst (fst b)) (snd (fst b)) (snd b)).
Proof.
  intros O Lat Lon. unfold local_box. change (mkGeo (px (bmin (rx_box b))) (py (bmin (rx_box b)))) with (rx_geo (fst b)).
  change (mkGeo (px (bmax (rx_box b))) (py (bmax (rx_box b)))) with (rx_geo (snd b)).
  destruct O as [O1 O2]. rewrite !gps_swp by (unfold lon_range; lra).
  change (mkBox (rx_pt ?x) (rx_pt ?y)) with (rx_box (x, y)). apply correct_ordered.
  assert (C := circ_pos (fst b) Lat). unfold ordered, swp, kx, ky. cbn [fst snd]. split; apply Rmult_le_compat_l; lra.
Qed.
Lemma swp_box (b : pt * pt) g : -90 < fst (fst b) < 90 -> in_rbox b g ->
  in_rbox (swp (kx (fst b)) ky (fst (fst b)) (snd (fst b)) (fst b), swp (kx (fst b)) ky (fst (fst b)) (snd (fst b)) (snd b)) (swp (kx (fst b)) ky (fst (fst b)) (snd (fst b)) g).
Proof.
  intros Lat H. assert (C := circ_pos (fst b) Lat). unfold in_rbox, swp, kx, ky in *. cbn [fst snd] in *.
  destruct H as [[X1 X2] [Y1 Y2]]. generalize (circ_at (fst b)) C. clear C. intros c C. destruct b as [[b1 b2] [b3 b4]], g as [g1 g2]. cbn [fst snd] in *. split; split; apply Rmult_le_compat_l; lra.
Qed.
Lemma swp_onto k1 k2 la lo q : 0 < k1 -> 0 < k2 -> exists g, swp k1 k2 la lo g = q.
Proof. intros H1 H2. destruct q as [x y]. exists (y / k2 + la, x / k1 + lo). unfold swp. cbn [fst snd]. f_equal; field; lra. Qed.
Section Level.
Context (g : geolevel RX) (l : level RX) (b : pt * pt) (ss cs : list rshape).
Context (Hp : outlined g ss) (Hl : local_level g = Ok l) (Hd : drawn_level b ss cs).
Lemma outline_base : ordered b /\ snd (get_geometry (map rx_poly ss)) = rx_box b /\ l_bind l = rx_geo (fst b) /\
  l_box l = rx_box ((0, 0), swp (kx (fst b)) ky (fst (fst b)) (snd (fst b)) (snd b)) /\
  l_allowed l = snd (level_geom (map rx_poly ss)).
Proof.
  destruct Hp as [Gb Ga]. destruct Hd as (D & A & N & L & Lat & Lon & Pts).
  assert (Ne : Forall (fun s => fst s <> []) ss).
  { clear - D. induction D as [|s c ss cs [[(Lc & _) X] _] _ IH]; constructor; [|exact IH]. destruct X as [E|(a & m & E & _)]; rewrite E; [destruct (fst c); [cbn in Lc; lia|discriminate]|discriminate]. }
  destruct (geometry_box N Ne) as (b' & Eb & O & L').
  assert (b' = b).
  { destruct L as [X1 X2], L' as [Y1 Y2]. destruct (X2 b' Y1) as [U1 U2]. destruct (Y2 b X1) as [V1 V2]. unfold in_rbox in *. clear - U1 U2 V1 V2. destruct b as [[a1 a2] [a3 a4]], b' as [[c1 c2] [c3 c4]]. cbn [fst snd] in *. repeat f_equal; lra. }
  subst b'. split; [exact O|]. split; [exact Eb|].
  assert (Eg : fst (level_geom (map rx_poly ss)) = rx_box b) by exact Eb.
  clear Hp. unfold local_level in Hl. destruct (local_graph _ _) as [gr| | |]; [|discriminate..]. cbn [bind] in Hl. injection Hl as <-. cbn [l_bind l_box l_allowed].
  assert (Bd : get_binding g = rx_geo (fst b)) by (unfold get_binding; rewrite Gb, Eg, (correct_ordered O); reflexivity).
  rewrite Bd. split; [reflexivity|]. rewrite Gb, Eg, (local_box_real O Lat Lon), Ga. split; [|reflexivity]. f_equal. f_equal. unfold swp. f_equal; ring.
Qed.
Lemma outline_at p : let q := swp (kx (fst b)) ky (fst (fst b)) (snd (fst b)) p in
  (l_allowed l (Some (fst q)) (Some (snd q)) = true <-> exists c, In c cs /\ in_shape c p).
Proof.
  cbv zeta. destruct outline_base as (O & Eb & _ & _ & ->). destruct Hd as (D & A & N & L & Lat & Lon & Pts).
  rewrite (@level_shape b ss cs p O Eb Lat D Pts).
  assert (Cl : Forall closed_shape cs) by (clear - D; induction D as [|s c ss cs Ds _ IH]; constructor; [exact (drawn_is_closed Ds)|exact IH]).
  split; intros (c & Ic & X); exists c; (split; [exact Ic|]);
    apply (scode_shape p (proj1 (Forall_forall _ _) Cl c Ic) (proj1 (Forall_forall _ _) A c Ic)), X.
Qed.
Lemma shapes_in_box c p : In c cs -> in_shape c p -> in_rbox b p.
Proof.
  intros Ic X. destruct Hd as (D & _ & _ & [L1 _] & _).
  assert (E : exists s, In s ss /\ drawn_shape s c).
  { clear - D Ic. induction D as [|s0 c0 ss cs D0 _ IH]; [destruct Ic|]. destruct Ic as [->|I]; [exists s0; cbn; auto|]. destruct (IH I) as (s & Is & Ds). exists s. cbn. auto. }
  destruct E as (s & Is & Ds). apply (@in_shape_box b c p (drawn_is_closed Ds)); [|exact X].
  intros x Ix. apply L1. unfold outline. apply in_concat. exists (fst s). split; [apply in_map, Is|]. apply (drawn_in x (proj1 Ds)), Ix.
Qed.
Lemma box_lon p : in_rbox b p -> lon_range (snd p - snd (fst b)).
Proof. intros [_ X]. destruct Hd as (_ & _ & _ & _ & _ & Lon & _). unfold lon_range. lra. Qed.
Theorem local_outline : exists hi, l_bind l = rx_geo (fst b) /\ l_box l = rx_box ((0, 0), hi) /\
  (forall p, in_rbox b p -> exists q, gps_to_local (rx_geo p) (l_bind l) = rx_pt q /\ in_rbox ((0, 0), hi) q) /\
  (forall c p, In c cs -> in_shape c p -> in_rbox b p).
Proof.
  destruct outline_base as (O & _ & Bd & Bx & _). eexists. split; [exact Bd|]. split; [exact Bx|]. split; [|exact shapes_in_box].
  intros p X. rewrite Bd. eexists. split; [apply gps_swp, box_lon, X|]. destruct Hd as (_ & _ & _ & _ & Lat & _).
  assert (B := swp_box Lat X). assert (Z : swp (kx (fst b)) ky (fst (fst b)) (snd (fst b)) (fst b) = (0, 0)) by (unfold swp; f_equal; ring).
  rewrite Z in B. exact B.
Qed.
Theorem local_allowed : (forall p q, lon_range (snd p - snd (fst b)) -> gps_to_local (rx_geo p) (l_bind l) = rx_pt q ->
    (l_allowed l (Some (fst q)) (Some (snd q)) = true <-> exists c, In c cs /\ in_shape c p)) /\
  (forall q, l_allowed l (Some (fst q)) (Some (snd q)) = true -> exists p c, gps_to_local (rx_geo p) (l_bind l) = rx_pt q /\ In c cs /\ in_shape c p).
Proof.
  destruct outline_base as (O & _ & Bd & Bx & _). destruct Hd as (_ & _ & _ & _ & Lat & Lon & _). rewrite Bd. split.
  - intros p q Hp' E. rewrite (gps_swp _ _ Hp') in E. assert (q = swp (kx (fst b)) ky (fst (fst b)) (snd (fst b)) p) as ->; [|apply outline_at].
    unfold rx_pt in E. destruct q as [q1 q2]. cbn [fst snd] in *. injection E as E1 E2. unfold swp. f_equal; symmetry; assumption.
  - intros q X. destruct (@swp_onto (kx (fst b)) ky (fst (fst b)) (snd (fst b)) q) as [p Ep].
    { unfold kx. assert (C := circ_pos (fst b) Lat). lra. } { unfold ky. lra. }
    rewrite <- Ep in X. apply outline_at in X. destruct X as (c & Ic & X). exists p, c. split; [|auto].
    rewrite gps_swp; [rewrite Ep; reflexivity|]. apply box_lon, (@shapes_in_box c); assumption.
Qed.
End Level.

(** ** Rectangles *)
Definition rectangle (b : pt * pt) : list pt := [fst b; (fst (snd b), snd (fst b)); snd b; (fst (fst b), snd (snd b)); fst b].
Lemma rectangle_closed b : closed (rectangle b).
Proof. split; [cbn; lia|]. exists (fst b), [(fst (snd b), snd (fst b)); snd b; (fst (fst b), snd (snd b))]. reflexivity. Qed.
Lemma rectangle_off b p : fst (fst b) < fst p < fst (snd b) -> snd (fst b) < snd p < snd (snd b) -> encloses (rectangle b) p.
Proof.
  destruct b as [[x0 y0] [x1 y1]], p as [x y]. cbn [fst snd]. intros [Hx0 Hx1] [Hy0 Hy1]. assert (D2 : 0 < y1 - y0) by lra.
  split.
  - intros (a & c & E & k & K & S). unfold rectangle in E. cbn [fst snd] in E.
    repeat (apply edge_inv in E; destruct E as [[-> ->]|E]; [unfold along in S; cbn [fst snd] in S; injection S as S1 S2; nra|]). destruct (edge_one E).
  - exists (1, 0), 1%Z. split; [|split; [|lia]].
    + split; [intros X; injection X; lra|]. intros a s Ha S E. unfold ray in E. cbn [fst snd] in E. cbn in Ha.
      destruct Ha as [<-|[<-|[<-|[<-|[<-|[]]]]]]; injection E as X1 X2; lra.
    + unfold rectangle. cbn [fst snd].
      assert (X : crossings (x, y) (1, 0) [(x0, y0); (x1, y0); (x1, y1); (x0, y1); (x0, y0)] (0 + (1 + (0 + (0 + 0))))); [|exact X].
      repeat constructor.
      * intros s k S K E. unfold along, ray in E. cbn [fst snd] in E. injection E as X1 X2. nra.
      * apply (@cr_left _ _ _ _ (x1 - x) ((y - y0) / (y1 - y0))); [lra| | |].
        -- assert (Q : (y - y0) / (y1 - y0) * (y1 - y0) = y - y0) by (field; lra). split; apply (Rmult_lt_reg_r (y1 - y0)); lra.
        -- unfold along, ray. cbn [fst snd]. f_equal; [ring|field; lra].
        -- unfold turns_left. cbn [fst snd]. lra.
      * intros s k S K E. unfold along, ray in E. cbn [fst snd] in E. injection E as X1 X2. nra.
      * intros s k S K E. unfold along, ray in E. cbn [fst snd] in E. injection E as X1 X2. nra.
Qed.
Definition strictly_in (b : pt * pt) (p : pt) : Prop := fst (fst b) < fst p < fst (snd b) /\ snd (fst b) < snd p < snd (snd b).
Lemma rectangle_in (b : pt * pt) a : fst (fst b) <= fst (snd b) -> snd (fst b) <= snd (snd b) -> In a (rectangle b) -> in_rbox b a.
Proof. intros Hx Hy Ha. cbn in Ha. unfold in_rbox. destruct Ha as [<-|[<-|[<-|[<-|[<-|[]]]]]]; cbn [fst snd]; lra. Qed.
Lemma rectangle_border (b : pt * pt) p : fst (fst b) < fst (snd b) -> snd (fst b) < snd (snd b) -> in_rbox b p -> ~ strictly_in b p -> on_ring (rectangle b) p.
Proof.
  destruct b as [[x0 y0] [x1 y1]], p as [x y]. cbn [fst snd]. intros Hx Hy [[A B] [A' B']] Ns. cbn [fst snd] in A, B, A', B'.
  set (b := ((x0, y0), (x1, y1)) : pt * pt) in *.
  assert (D1 : 0 < x1 - x0) by lra. assert (D2 : 0 < y1 - y0) by lra.
  assert (Fr : forall u d, 0 < d -> 0 <= u -> u <= d -> 0 <= u / d <= 1).
  { intros u d P Q S. split; [apply Rmult_le_pos; [exact Q|apply Rlt_le, Rinv_0_lt_compat, P]|]. apply (Rmult_le_reg_r d); [exact P|]. unfold Rdiv. rewrite Rmult_assoc, Rinv_l by lra. lra. }
  assert (On : forall a c, edge (rectangle b) a c -> on_segment (x, y) a c -> on_ring (rectangle b) (x, y)) by (intros a c E S; exists a, c; auto).
  assert (E1 : edge (rectangle b) (x0, y0) (x1, y0)) by (exists [], [(x1, y1); (x0, y1); (x0, y0)]; reflexivity).
  assert (E2 : edge (rectangle b) (x1, y0) (x1, y1)) by (exists [(x0, y0)], [(x0, y1); (x0, y0)]; reflexivity).
  assert (E3 : edge (rectangle b) (x1, y1) (x0, y1)) by (exists [(x0, y0); (x1, y0)], [(x0, y0)]; reflexivity).
  assert (E4 : edge (rectangle b) (x0, y1) (x0, y0)) by (exists [(x0, y0); (x1, y0); (x1, y1)], []; reflexivity).
  destruct (Req_dec y y0) as [->|Ny0].
  { apply (On _ _ E1). exists ((x - x0) / (x1 - x0)). split; [apply Fr; lra|]. unfold along. cbn [fst snd]. f_equal; field; lra. }
  destruct (Req_dec y y1) as [->|Ny1].
  { apply (On _ _ E3). exists ((x1 - x) / (x1 - x0)). split; [apply Fr; lra|]. unfold along. cbn [fst snd]. f_equal; field; lra. }
  destruct (Req_dec x x0) as [->|Nx0].
  { apply (On _ _ E4). exists ((y1 - y) / (y1 - y0)). split; [apply Fr; lra|]. unfold along. cbn [fst snd]. f_equal; field; lra. }
  destruct (Req_dec x x1) as [->|Nx1].
  { apply (On _ _ E2). exists ((y - y0) / (y1 - y0)). split; [apply Fr; lra|]. unfold along. cbn [fst snd]. f_equal; field; lra. }
  exfalso. apply Ns. unfold strictly_in. cbn [fst snd b]. lra.
Qed.
Lemma rectangle_encloses (b : pt * pt) p : fst (fst b) < fst (snd b) -> snd (fst b) < snd (snd b) -> (encloses (rectangle b) p <-> strictly_in b p).
Proof.
  intros Hx Hy. split; [|intros [A B]; apply rectangle_off; assumption]. intros E.
  assert (B := encloses_box (rectangle_closed b) (fun a => @rectangle_in b a (Rlt_le _ _ Hx) (Rlt_le _ _ Hy)) E).
  destruct (Rlt_dec (fst (fst b)) (fst p)); destruct (Rlt_dec (fst p) (fst (snd b))); destruct (Rlt_dec (snd (fst b)) (snd p)); destruct (Rlt_dec (snd p) (snd (snd b)));
    try (split; split; assumption); exfalso; apply (encloses_off E), (rectangle_border Hx Hy B); unfold strictly_in; tauto.
Qed.
Lemma frame_shape (b h : pt * pt) p : fst (fst b) < fst (snd b) -> snd (fst b) < snd (snd b) -> fst (fst h) < fst (snd h) -> snd (fst h) < snd (snd h) ->
  in_rbox b (fst h) -> in_rbox b (snd h) -> (in_shape (rectangle b, [rectangle h]) p <-> in_rbox b p /\ ~ strictly_in h p).
Proof.
  intros Hx Hy Kx Ky A C. unfold in_shape. cbn [fst snd]. split.
  - intros [H|[H N]].
    + split; [exact (on_ring_box (fun a => @rectangle_in b a (Rlt_le _ _ Hx) (Rlt_le _ _ Hy)) H)|]. intros S.
      assert (E : encloses (rectangle b) p) by (apply (@rectangle_encloses b p Hx Hy); unfold in_rbox, strictly_in in *; lra). exact (encloses_off E H).
    + split; [exact (encloses_box (rectangle_closed b) (fun a => @rectangle_in b a (Rlt_le _ _ Hx) (Rlt_le _ _ Hy)) H)|].
      intros S. apply (N _ (or_introl eq_refl)), (@rectangle_encloses h p Kx Ky), S.
  - intros [H N]. assert (D : strictly_in b p \/ ~ strictly_in b p).
    { unfold strictly_in. destruct (Rlt_dec (fst (fst b)) (fst p)); destruct (Rlt_dec (fst p) (fst (snd b))); destruct (Rlt_dec (snd (fst b)) (snd p)); destruct (Rlt_dec (snd p) (snd (snd b))); tauto. }
    destruct D as [D|D]; [right|left; exact (rectangle_border Hx Hy H D)]. split; [apply (@rectangle_encloses b p Hx Hy), D|].
    intros k [<-|[]] E. apply N, (@rectangle_encloses h p Kx Ky), E.
Qed.
Theorem rectangle_shape (b : pt * pt) p : fst (fst b) < fst (snd b) -> snd (fst b) < snd (snd b) -> (in_shape (rectangle b, []) p <-> in_rbox b p).
Proof.
  intros Hx Hy. unfold in_shape. cbn [fst snd]. split.
  - intros [H|[H N]].
    + exact (on_ring_box (fun a => @rectangle_in b a (Rlt_le _ _ Hx) (Rlt_le _ _ Hy)) H).
    + exact (encloses_box (rectangle_closed b) (fun a => @rectangle_in b a (Rlt_le _ _ Hx) (Rlt_le _ _ Hy)) H).
  - intros H. assert (D : strictly_in b p \/ ~ strictly_in b p).
    { unfold strictly_in. destruct (Rlt_dec (fst (fst b)) (fst p)); destruct (Rlt_dec (fst p) (fst (snd b))); destruct (Rlt_dec (snd (fst b)) (snd p)); destruct (Rlt_dec (snd p) (snd (snd b))); tauto. }
    destruct D as [D|D]; [right|left; exact (rectangle_border Hx Hy H D)]. split; [apply (@rectangle_encloses b p Hx Hy), D|]. intros k [].
Qed.

(** ** The smoother *)
Lemma ok_inj A (a b : A) : Ok a = Ok b -> a = b.
Proof. intros E. inversion E. reflexivity. Qed.
Lemma smooth_allowed s (allowed : RX -> RX -> bool) m p m' r : s_barriers s = true -> sm_smooth s allowed m p = Ok (m', r) ->
  (p_x r = p_x p /\ p_y r = p_y p) \/ (exists a, m = SAB a /\ (p_ts p <= p_ts (ab_pos a))%Z /\ r = ab_pos a) \/
  (exists x y, p_x r = Some x /\ p_y r = Some y /\ allowed (Some x) (Some y) = true).
Proof.
  intros Hb. unfold sm_smooth. destruct m as [a|q].
  - destruct (ab_smooth s allowed a p) as [a' p'] eqn:E. intros X. apply ok_inj, pair_equal_spec in X. destruct X as [<- <-].
    unfold ab_smooth in E. destruct (p_ts (ab_pos a) <? p_ts p)%Z eqn:Ht.
    + cbv zeta in E. match type of E with (if _ || _ || _ || (_ && negb (allowed ?x ?y)) then _ else _) = _ => set (xs := x) in *; set (ys := y) in * end.
      rewrite Hb in E. cbn [andb] in E. destruct (allowed xs ys) eqn:Ha; cbn [negb] in E.
      2: { rewrite orb_true_r in E. apply pair_equal_spec in E; destruct E as [_ <-]. auto. }
      match type of E with (if ?c then _ else _) = _ => destruct c end; [apply pair_equal_spec in E; destruct E as [_ <-]; auto|].
      destruct xs as [xr|] eqn:Ex; [|left; cbn in E; apply pair_equal_spec in E; destruct E as [_ <-]; destruct (s_accsmooth s); auto].
      destruct ys as [yr|] eqn:Ey; [|left; cbn in E; apply pair_equal_spec in E; destruct E as [_ <-]; destruct (s_accsmooth s); auto].
      right; right. exists xr, yr. apply pair_equal_spec in E; destruct E as [_ <-]. destruct (s_accsmooth s); cbn; auto.
    + apply pair_equal_spec in E; destruct E as [_ <-]. right. left. exists a. apply Z.ltb_ge in Ht. auto.
  - unfold lsq_smooth. destruct (negb (lq_called q)); [intros X; apply ok_inj, pair_equal_spec in X; destruct X as [_ <-]; auto|].
    cbv zeta. destruct (pf_add _ (lq_x q) _ _) as [fx| | |]; [|discriminate..]. cbn [bind]. destruct (pf_add _ (lq_y q) _ _) as [fy| | |]; [|discriminate..]. cbn [bind].
    destruct (pf_predict _ fx _) as [fx' xs]. destruct (pf_predict _ fy _) as [fy' ys]. rewrite Hb. cbn [andb].
    destruct (allowed xs ys) eqn:Ha; cbn [negb bind]; intros X; apply ok_inj, pair_equal_spec in X; destruct X as [_ <-]; [|auto].
    destruct xs as [xr|]; [|auto]. destruct ys as [yr|]; [|auto]. right; right. exists xr, yr. cbn. auto.
Qed.

Lemma first_unique A (q : A -> Prop) l x y : first_with q l x -> first_with q l y -> x = y.
Proof.
  intros (p1 & q1 & -> & Q1 & N1) (p2 & q2 & E2 & Q2 & N2). revert p2 N2 E2.
  induction p1 as [|z p1 IH]; intros [|w p2] N2 E2; cbn [app] in E2; injection E2 as E2 E3.
  - exact E2.
  - exfalso. inversion N2; subst. contradiction.
  - exfalso. inversion N1; subst. contradiction.
  - inversion N1; subst. inversion N2; subst. exact (IH H2 p2 H4 E3).
Qed.
