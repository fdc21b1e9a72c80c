(** C58, C59: the triangulation is the Delaunay triangulation. *)
From Coq Require Import Reals Lra.
From Verif Require Import Lib NumReal NumFloat LibR SortInst Triangulation Spec_Tri Spec_Del Pf_Del Pf_DelDup Pf_Cover P_Tri Ex.
Local Open Scope string_scope.
Local Open Scope list_scope.
#[local] Existing Instance isorter.

(** ** C58: exactly the Delaunay triangles of the inputs and the auxiliary
    points, less those with an auxiliary corner or a long edge *)
Theorem C58_delaunay (SO : Sorter) (vs : list (tvert RX)) (m lx hx ly hy : R) :
  proper vs -> (3 <= List.length vs)%nat -> moderate (map loc vs) ->
  bounding lx hx ly hy (map loc vs) -> general (frame lx hx ly hy ++ map loc vs) ->
  exists ts, triangulate_vertices vs (Some m : RX) = Ok ts /\ NoDup ts /\
    (forall t t', In t ts -> In t' ts -> (forall x, In x (corners t) <-> In x (corners t')) -> t = t') /\
    (forall t, In t ts -> incl (corners t) vs /\ NoDup (corners t)) /\
    forall a b c, In a vs -> In b vs -> In c vs ->
      ((exists t, In t ts /\ forall x, In x (corners t) <-> x = a \/ x = b \/ x = c) /\ a <> b /\ b <> c /\ a <> c <->
       delaunay (frame lx hx ly hy ++ map loc vs) (loc a) (loc b) (loc c) /\
       (dist2 (loc a) (loc b) <= m)%R /\ (dist2 (loc b) (loc c) <= m)%R /\ (dist2 (loc a) (loc c) <= m)%R).
Proof. exact (@triangulate_delaunay SO vs m lx hx ly hy). Qed.
Print Assumptions C58_delaunay.
(** no input lies in the circumcircle of a returned triangle *)
Theorem C58_empty (SO : Sorter) (vs : list (tvert RX)) (m lx hx ly hy : R) ts :
  proper vs -> (3 <= List.length vs)%nat -> moderate (map loc vs) ->
  bounding lx hx ly hy (map loc vs) -> general (frame lx hx ly hy ++ map loc vs) -> triangulate_vertices vs (Some m : RX) = Ok ts ->
  forall t v, In t ts -> In v vs -> ~ In v (corners t) -> outside_circle (loc (ta t)) (loc (tb t)) (loc (tc t)) (loc v).
Proof.
  intros Hp Hl Hm Hb Hg Ht t v Hin Hv Nv. destruct (@out_delaunay SO vs m lx hx ly hy ts Hp Hl Hm Hb Hg Ht t Hin) as (Hi & D & _).
  assert (Inj : forall x, In x (corners t) -> loc v <> loc x).
  { intros x Hx E. assert (v = x) by (apply (Pf_Tri.nodup_map_inj loc vs); [apply Hp|exact Hv|apply Hi, Hx|exact E]). subst x. contradiction. }
  apply D; [apply in_or_app; right; apply in_map, Hv| | |]; apply Inj; cbn; auto.
Qed.
Print Assumptions C58_empty.

(** *** instances: points with integer coordinates *)
Definition zp (p : Z * Z) : pt := (IZR (fst p), IZR (snd p)).
Definition zarea (a b c : Z * Z) : Z := ((fst b - fst a) * (snd c - snd a) - (snd b - snd a) * (fst c - fst a))%Z.
Definition zdot (a b p : Z * Z) : Z := ((fst p - fst a) * (fst p - fst b) + (snd p - snd a) * (snd p - snd b))%Z.
Definition zin (a b c v : Z * Z) : Z := (zarea a b c * (zarea a b v * zdot a b c - zarea a b c * zdot a b v))%Z.
Definition zne (a b : Z * Z) : bool := negb ((fst a =? fst b)%Z && (snd a =? snd b)%Z).
Definition zgeneral (l : list (Z * Z)) : bool :=
  forallb (fun a => forallb (fun b => forallb (fun c => implb (zne a b && zne b c && zne a c) (negb (zarea a b c =? 0)%Z &&
    forallb (fun v => implb (zne v a && zne v b && zne v c) (negb (zin a b c v =? 0)%Z)) l)) l) l) l.
Lemma zarea_ok a b c : area2 (zp a) (zp b) (zp c) = IZR (zarea a b c).
Proof. unfold area2, zarea, zp. cbn [fst snd]. rewrite !minus_IZR, !mult_IZR, !minus_IZR. reflexivity. Qed.
Lemma zdot_ok a b c : dotp (zp a) (zp b) (zp c) = IZR (zdot a b c).
Proof. unfold dotp, zdot, zp. cbn [fst snd]. rewrite !plus_IZR, !mult_IZR, !minus_IZR. reflexivity. Qed.
Lemma zin_ok a b c v : incirc (zp a) (zp b) (zp c) (zp v) = IZR (zin a b c v).
Proof. unfold incirc, zin. rewrite !zarea_ok, !zdot_ok, mult_IZR, minus_IZR, !mult_IZR. reflexivity. Qed.
Lemma zne_ok a b : zp a <> zp b -> zne a b = true.
Proof.
  intros H. unfold zne. apply negb_true_iff, not_true_is_false. intros E. apply andb_true_iff in E. destruct E as [E1 E2].
  apply Z.eqb_eq in E1. apply Z.eqb_eq in E2. apply H. unfold zp. rewrite E1, E2. reflexivity.
Qed.
Lemma zgeneral_ok l : zgeneral l = true -> general (map zp l).
Proof.
  intros H. unfold zgeneral in H.
  assert (K : forall a b c, In a l -> In b l -> In c l -> zp a <> zp b -> zp b <> zp c -> zp a <> zp c ->
     zarea a b c <> 0%Z /\ forall v, In v l -> zp v <> zp a -> zp v <> zp b -> zp v <> zp c -> zin a b c v <> 0%Z).
  { intros a b c Ha Hb Hc N1 N2 N3. rewrite forallb_forall in H. assert (H1 := H a Ha). rewrite forallb_forall in H1. assert (H2 := H1 b Hb). rewrite forallb_forall in H2.
    assert (H3 := H2 c Hc). rewrite (zne_ok _ _ N1), (zne_ok _ _ N2), (zne_ok _ _ N3) in H3. cbn [andb implb] in H3. apply andb_true_iff in H3. destruct H3 as [H3 H4].
    split; [intros E; rewrite E in H3; discriminate|]. intros v Hv M1 M2 M3. rewrite forallb_forall in H4. assert (H5 := H4 v Hv).
    rewrite (zne_ok _ _ M1), (zne_ok _ _ M2), (zne_ok _ _ M3) in H5. cbn [andb implb] in H5. intros E. rewrite E in H5. discriminate. }
  split.
  - intros a b c Ha Hb Hc N1 N2 N3. apply in_map_iff in Ha, Hb, Hc. destruct Ha as (a' & <- & Ha), Hb as (b' & <- & Hb), Hc as (c' & <- & Hc).
    rewrite zarea_ok. apply not_0_IZR. apply K; assumption.
  - intros a b c v o Ha Hb Hc Hv N1 N2 N3 M1 M2 M3 Ho. rewrite <- (incirc_centre v Ho).
    apply in_map_iff in Ha, Hb, Hc, Hv. destruct Ha as (a' & <- & Ha), Hb as (b' & <- & Hb), Hc as (c' & <- & Hc), Hv as (v' & <- & Hv).
    destruct (K a' b' c' Ha Hb Hc N1 N2 N3) as [A I]. assert (I' := I v' Hv M1 M2 M3). assert (E := incirc_centre (zp v') Ho). rewrite zin_ok in E |- *.
    assert (A2 : area2 (zp a') (zp b') (zp c') <> 0%R) by (rewrite zarea_ok; apply not_0_IZR; exact A). assert (A3 := sq_pos A2).
    destruct (Z_lt_le_dec (zin a' b' c' v') 0) as [L|L].
    + left. apply IZR_lt in L. rewrite E in L. destruct (Rlt_dec (sqd o (zp a')) (sqd o (zp v'))) as [Q|Q]; [exact Q|]. exfalso.
      assert (0 <= area2 (zp a') (zp b') (zp c') * area2 (zp a') (zp b') (zp c') * (sqd o (zp a') - sqd o (zp v')))%R by (apply Rmult_le_pos; lra). lra.
    + right. assert (L' : (1 <= zin a' b' c' v')%Z) by lia. apply IZR_le in L'. lra.
Qed.
Definition zvert (id : string) (p : Z * Z) : tvert RX := mkTV (Some (IZR (fst p)) : RX) (Some (IZR (snd p)) : RX) id.

Lemma zdelaunay_ok l a b c : In a l -> In b l -> In c l -> zarea a b c <> 0%Z ->
  forallb (fun v => negb (zne v a && zne v b && zne v c) || (zin a b c v <? 0)%Z) l = true -> delaunay (map zp l) (zp a) (zp b) (zp c).
Proof.
  intros Ha Hb Hc A H. assert (A2 : area2 (zp a) (zp b) (zp c) <> 0%R) by (rewrite zarea_ok; apply not_0_IZR; exact A).
  split; [apply in_map, Ha|]. split; [apply in_map, Hb|]. split; [apply in_map, Hc|].
  split; [intros E; rewrite E in A2; apply A2; unfold area2; ring|]. split; [intros E; rewrite E in A2; apply A2; unfold area2; ring|]. split; [intros E; rewrite E in A2; apply A2; unfold area2; ring|].
  intros v Hv M1 M2 M3. apply in_map_iff in Hv. destruct Hv as (v' & <- & Hv). apply (outside_neg _ A2). rewrite zin_ok. apply IZR_lt.
  rewrite forallb_forall in H. assert (K := H v' Hv). rewrite (zne_ok _ _ M1), (zne_ok _ _ M2), (zne_ok _ _ M3) in K. cbn [andb negb orb] in K. apply Z.ltb_lt, K.
Qed.
Lemma zmoderate l : forallb (fun p => (Z.abs (fst p) <=? 100)%Z && (Z.abs (snd p) <=? 100)%Z) l = true -> moderate (map zp l).
Proof.
  intros H p Hp. apply in_map_iff in Hp. destruct Hp as (q & <- & Hq). rewrite forallb_forall in H. assert (K := H q Hq). apply andb_true_iff in K. destruct K as [K1 K2].
  apply Z.leb_le in K1. apply Z.leb_le in K2. apply IZR_le in K1. apply IZR_le in K2.
  assert (B : (100 <= 10 ^ 300)%R).
  { replace (10 ^ 300)%R with (IZR (10 ^ 300)) by (symmetry; rewrite pow_IZR; reflexivity). apply IZR_le. vm_compute. discriminate. }
  unfold zp. cbn [fst snd]. rewrite <- !abs_IZR. lra.
Qed.
Lemma zbounding lx hx ly hy l : forallb (fun p => (lx <=? fst p) && (fst p <=? hx) && (ly <=? snd p) && (snd p <=? hy))%Z l = true ->
  existsb (fun p => (fst p =? lx)%Z) l = true -> existsb (fun p => (fst p =? hx)%Z) l = true -> existsb (fun p => (snd p =? ly)%Z) l = true -> existsb (fun p => (snd p =? hy)%Z) l = true ->
  bounding (IZR lx) (IZR hx) (IZR ly) (IZR hy) (map zp l).
Proof.
  intros H H1 H2 H3 H4. apply existsb_exists in H1, H2, H3, H4.
  assert (Q : forall (f : Z * Z -> Z) (g : pt -> R) z, (forall p, g (zp p) = IZR (f p)) -> (exists p, In p l /\ (f p =? z)%Z = true) -> exists p, In p (map zp l) /\ g p = IZR z).
  { intros f g z E (p & Hp & Ez). exists (zp p). split; [apply in_map, Hp|]. rewrite E. apply Z.eqb_eq in Ez. rewrite Ez. reflexivity. }
  split; [|split; [|split; [|split]]].
  - intros p Hp. apply in_map_iff in Hp. destruct Hp as (z & <- & Hz). rewrite forallb_forall in H. assert (K := H z Hz). rewrite !andb_true_iff, !Z.leb_le in K.
    destruct K as (((K1 & K2) & K3) & K4). unfold zp. cbn [fst snd]. repeat split; apply IZR_le; assumption.
  - apply (Q fst); [reflexivity|exact H1].
  - apply (Q fst); [reflexivity|exact H2].
  - apply (Q snd); [reflexivity|exact H3].
  - apply (Q snd); [reflexivity|exact H4].
Qed.

(** four points giving two triangles *)
Definition C58_zs : list (Z * Z) := [(7, 0); (6, 6); (9, 12); (12, 0)]%Z.
Definition C58_zv : list (Z * Z) := ([(-36, -10); (54, -10); (9, 35)] ++ C58_zs)%Z.
Definition C58_vs : list (tvert RX) := [zvert "a" (7, 0)%Z; zvert "b" (6, 6)%Z; zvert "c" (9, 12)%Z; zvert "d" (12, 0)%Z].
Lemma C58_frame : frame 6 12 0 12 ++ map loc C58_vs = map zp C58_zv.
Proof.
  unfold frame, C58_zv, C58_zs, C58_vs, loc, zp, zvert. cbn [map app fst snd tv_x tv_y rval].
  repeat match goal with |- _ :: _ = _ :: _ => f_equal | |- (_, _) = (_, _) => f_equal end; lra.
Qed.
Example C58_example : proper C58_vs /\ (3 <= List.length C58_vs)%nat /\ moderate (map loc C58_vs) /\ bounding 6 12 0 12 (map loc C58_vs) /\
  general (frame 6 12 0 12 ++ map loc C58_vs) /\
  delaunay (frame 6 12 0 12 ++ map loc C58_vs) (7, 0)%R (6, 6)%R (12, 0)%R /\ delaunay (frame 6 12 0 12 ++ map loc C58_vs) (6, 6)%R (9, 12)%R (12, 0)%R.
Proof.
  assert (G : general (map zp C58_zv)) by (apply zgeneral_ok; vm_compute; reflexivity).
  rewrite C58_frame. split.
  { split; [repeat constructor|]. split; [cbn; repeat constructor; cbn; intuition discriminate|]. split; [intros v [<-|[<-|[<-|[<-|[]]]]]; cbn; intuition discriminate|].
    unfold C58_vs, loc, zvert. cbn [map fst snd tv_x tv_y rval]. repeat constructor; cbn; intros H; repeat (destruct H as [H|H]; [injection H; intros; lra|]); destruct H. }
  split; [cbn; lia|]. split; [change (map loc C58_vs) with (map zp C58_zs); apply zmoderate; reflexivity|].
  split; [change (map loc C58_vs) with (map zp C58_zs); apply zbounding; reflexivity|].
  split; [exact G|]. split.
  - change (delaunay (map zp C58_zv) (zp (7, 0)%Z) (zp (6, 6)%Z) (zp (12, 0)%Z)). apply zdelaunay_ok; [unfold C58_zv, C58_zs; cbn; tauto|unfold C58_zv, C58_zs; cbn; tauto|unfold C58_zv, C58_zs; cbn; tauto|discriminate|vm_compute; reflexivity].
  - change (delaunay (map zp C58_zv) (zp (6, 6)%Z) (zp (9, 12)%Z) (zp (12, 0)%Z)). apply zdelaunay_ok; [unfold C58_zv, C58_zs; cbn; tauto|unfold C58_zv, C58_zs; cbn; tauto|unfold C58_zv, C58_zs; cbn; tauto|discriminate|vm_compute; reflexivity].
Qed.

(** of several reference points at one place only the first takes part, whatever
    the names of the others are *)
Theorem C58_repeated_places (SO : Sorter) (vs ws : list (tvert RX)) (m : RX) (lx hx ly hy : R) :
  first_places [] vs ws -> Forall real_vert vs ->
  proper ws -> (3 <= List.length ws)%nat -> moderate (map loc ws) -> bounding lx hx ly hy (map loc ws) -> general (frame lx hx ly hy ++ map loc ws) ->
  triangulate_vertices vs m = triangulate_vertices ws m.
Proof. exact (@triangulate_firsts SO vs ws m lx hx ly hy). Qed.
Print Assumptions C58_repeated_places.
Example C58_example_repeated : first_places [] [zvert "a" (7, 0)%Z; zvert "b" (6, 6)%Z; zvert "b2" (6, 6)%Z; zvert "c" (9, 12)%Z; zvert "d" (12, 0)%Z; zvert "a" (7, 0)%Z] C58_vs.
Proof.
  unfold C58_vs, zvert, loc. apply fp_keep; [intros []|]. apply fp_keep; [cbn; intros [H|[]]; injection H; intros; lra|]. apply fp_skip; [cbn; auto|].
  apply fp_keep; [cbn; intros [H|[H|[]]]; injection H; intros; lra|]. apply fp_keep; [cbn; intros [H|[H|[H|[]]]]; injection H; intros; lra|].
  apply fp_skip; [cbn; auto 6|]. constructor.
Qed.

(** the auxiliary points take part: a triangle whose circle holds no other
    input may be missing, and with it the whole triangulation *)
Definition C58_flat : list (tvert RX) := [zvert "a" (0, 0)%Z; zvert "b" (10, 0)%Z; zvert "c" (20, 1)%Z].
Definition C58_fzv : list (Z * Z) := [(-31, -10); (51, -10); (10, 31); (0, 0); (10, 0); (20, 1)]%Z.
Theorem C58_inputs_alone_refuted (SO : Sorter) : exists (vs : list (tvert RX)) a b c,
  proper vs /\ In a vs /\ In b vs /\ In c vs /\ delaunay (map loc vs) (loc a) (loc b) (loc c) /\ forall m : R, triangulate_vertices vs (Some m : RX) = Ok [].
Proof.
  exists C58_flat, (zvert "a" (0, 0)%Z), (zvert "b" (10, 0)%Z), (zvert "c" (20, 1)%Z).
  assert (P : proper C58_flat).
  { split; [repeat constructor|]. split; [cbn; repeat constructor; cbn; intuition discriminate|]. split; [intros v [<-|[<-|[<-|[]]]]; cbn; intuition discriminate|].
    unfold C58_flat, loc, zvert. cbn [map fst snd tv_x tv_y rval]. repeat constructor; cbn; intros H; repeat (destruct H as [H|H]; [injection H; intros; lra|]); destruct H. }
  split; [exact P|]. split; [cbn; auto|]. split; [cbn; auto|]. split; [cbn; auto|]. split.
  { change (delaunay (map zp [(0, 0); (10, 0); (20, 1)]%Z) (zp (0, 0)%Z) (zp (10, 0)%Z) (zp (20, 1)%Z)). apply zdelaunay_ok; [cbn; tauto|cbn; tauto|cbn; tauto|discriminate|vm_compute; reflexivity]. }
  intros m.
  assert (E : frame 0 20 0 1 ++ map loc C58_flat = map zp C58_fzv).
  { unfold frame, C58_fzv, C58_flat, loc, zp, zvert. cbn [map app fst snd tv_x tv_y rval].
    repeat match goal with |- _ :: _ = _ :: _ => f_equal | |- (_, _) = (_, _) => f_equal end; lra. }
  assert (G : general (map zp C58_fzv)) by (apply zgeneral_ok; vm_compute; reflexivity).
  destruct (C58_delaunay SO C58_flat m 0 20 0 1 P) as (ts & Ht & _ & _ & Hc & Hd).
  - cbn; lia.
  - change (map loc C58_flat) with (map zp [(0, 0); (10, 0); (20, 1)]%Z). apply zmoderate; reflexivity.
  - change (map loc C58_flat) with (map zp [(0, 0); (10, 0); (20, 1)]%Z). apply zbounding; reflexivity.
  - rewrite E. exact G.
  - rewrite Ht. destruct ts as [|t r]; [reflexivity|]. exfalso. destruct (Hc t (or_introl eq_refl)) as [Hi Hn].
    assert (Ia : In (ta t) C58_flat) by (apply Hi; cbn; auto). assert (Ib : In (tb t) C58_flat) by (apply Hi; cbn; auto). assert (Ic : In (tc t) C58_flat) by (apply Hi; cbn; auto).
    unfold corners in Hn. inversion Hn as [|? ? N1 N2]; subst. inversion N2 as [|? ? N3 _]; subst. cbn in N1, N3.
    destruct (proj1 (Hd (ta t) (tb t) (tc t) Ia Ib Ic)) as [D _].
    { split; [exists t; split; [left; reflexivity|]; intros x; unfold corners; cbn; intuition congruence|]. repeat split; intros X; [apply N1|apply N3|apply N1]; rewrite X; auto. }
    rewrite E in D.
    assert (Bad : forall a b c, In a [(0, 0); (10, 0); (20, 1)]%Z -> In b [(0, 0); (10, 0); (20, 1)]%Z -> In c [(0, 0); (10, 0); (20, 1)]%Z -> ~ delaunay (map zp C58_fzv) (zp a) (zp b) (zp c)).
    { intros a b c Ha Hb Hc' (_ & _ & _ & M1 & M2 & M3 & H). assert (K := H (zp (10, 31)%Z)).
      assert (Sub : forall z, In z [(0, 0); (10, 0); (20, 1)]%Z -> In (zp z) (map zp C58_fzv)) by (intros z Hz; apply in_map; right; right; right; exact Hz).
      assert (A : area2 (zp a) (zp b) (zp c) <> 0%R) by (apply G; auto).
      assert (K' : outside_circle (zp a) (zp b) (zp c) (zp (10, 31)%Z)).
      { apply K; [apply in_map; unfold C58_fzv; cbn; tauto| | |]; [destruct Ha as [<-|[<-|[<-|[]]]]|destruct Hb as [<-|[<-|[<-|[]]]]|destruct Hc' as [<-|[<-|[<-|[]]]]]; unfold zp; cbn [fst snd]; intros X; injection X; intros; lra. }
      apply (outside_neg _ A) in K'. rewrite zin_ok in K'. apply lt_IZR in K'. clear - K' M1 M2 M3 Ha Hb Hc'.
      destruct Ha as [<-|[<-|[<-|[]]]], Hb as [<-|[<-|[<-|[]]]], Hc' as [<-|[<-|[<-|[]]]]; try (exfalso; apply M1; reflexivity); try (exfalso; apply M2; reflexivity); try (exfalso; apply M3; reflexivity); vm_compute in K'; discriminate. }
    assert (Z : forall v, In v C58_flat -> exists z, In z [(0, 0); (10, 0); (20, 1)]%Z /\ loc v = zp z).
    { intros v [<-|[<-|[<-|[]]]]; eexists; (split; [|reflexivity]); cbn; auto. }
    destruct (Z _ Ia) as (za & Ha & Ea), (Z _ Ib) as (zb & Hb & Eb), (Z _ Ic) as (zc & Hc' & Ec). rewrite Ea, Eb, Ec in D. exact (Bad za zb zc Ha Hb Hc' D).
Qed.
Print Assumptions C58_inputs_alone_refuted.

(** ** C59: the triangles tile the plane *)
(** returned triangles do not overlap *)
Theorem C59_disjoint (SO : Sorter) (vs : list (tvert RX)) (m lx hx ly hy : R) ts :
  proper vs -> (3 <= List.length vs)%nat -> moderate (map loc vs) ->
  bounding lx hx ly hy (map loc vs) -> general (frame lx hx ly hy ++ map loc vs) -> triangulate_vertices vs (Some m : RX) = Ok ts ->
  forall t t' q, In t ts -> In t' ts -> inside (loc (ta t)) (loc (tb t)) (loc (tc t)) q -> inside (loc (ta t')) (loc (tb t')) (loc (tc t')) q -> t = t'.
Proof. intros Hp Hl Hm Hb Hg Ht t t' q. exact (@out_disjoint SO vs m lx hx ly hy ts Hp Hl Hm Hb Hg Ht t t' q). Qed.
Print Assumptions C59_disjoint.
(** every place of the bounding box off the lines through two points lies in
    exactly one Delaunay triangle, and the output covers it exactly when that
    triangle is made of inputs and has no long edge *)
Theorem C59_cover (SO : Sorter) (vs : list (tvert RX)) (m lx hx ly hy : R) ts :
  proper vs -> (3 <= List.length vs)%nat -> moderate (map loc vs) ->
  bounding lx hx ly hy (map loc vs) -> general (frame lx hx ly hy ++ map loc vs) -> triangulate_vertices vs (Some m : RX) = Ok ts ->
  let V := frame lx hx ly hy ++ map loc vs in
  forall q, (lx <= fst q <= hx)%R -> (ly <= snd q <= hy)%R -> (forall a b, In a V -> In b V -> a <> b -> area2 a b q <> 0%R) ->
  exists a b c, delaunay V a b c /\ inside a b c q /\
    (forall d e f, delaunay V d e f -> inside d e f q -> forall x, x = d \/ x = e \/ x = f <-> x = a \/ x = b \/ x = c) /\
    ((exists t, In t ts /\ inside (loc (ta t)) (loc (tb t)) (loc (tc t)) q) <->
     (In a (map loc vs) /\ In b (map loc vs) /\ In c (map loc vs)) /\ (dist2 a b <= m)%R /\ (dist2 b c <= m)%R /\ (dist2 a c <= m)%R).
Proof. intros Hp Hl Hm Hb Hg Ht V q. exact (@out_cover SO vs m lx hx ly hy ts Hp Hl Hm Hb Hg Ht q). Qed.
Print Assumptions C59_cover.
(** a place inside one of the two triangles of [C58_example] *)
Example C59_example : let V := frame 6 12 0 12 ++ map loc C58_vs in let q := (8, 2)%R in
  (6 <= fst q <= 12)%R /\ (0 <= snd q <= 12)%R /\ (forall a b, In a V -> In b V -> a <> b -> area2 a b q <> 0%R) /\ inside (7, 0)%R (6, 6)%R (12, 0)%R q.
Proof.
  cbv zeta. rewrite C58_frame. split; [cbn; lra|]. split; [cbn; lra|]. split.
  - assert (K : forallb (fun a => forallb (fun b => negb (zne a b) || negb (zarea a b (8, 2) =? 0))%Z C58_zv) C58_zv = true) by (vm_compute; reflexivity).
    intros a b Ha Hb N. apply in_map_iff in Ha, Hb. destruct Ha as (a' & <- & Ha), Hb as (b' & <- & Hb). change (8, 2)%R with (zp (8, 2)%Z). rewrite zarea_ok. apply not_0_IZR.
    rewrite forallb_forall in K. assert (K1 := K a' Ha). rewrite forallb_forall in K1. assert (K2 := K1 b' Hb). rewrite (zne_ok _ _ N) in K2. cbn [negb orb] in K2. intros E. rewrite E in K2. discriminate.
  - exists (2 / 5)%R, (1 / 3)%R, (4 / 15)%R. repeat (split; [lra|]). cbn [fst snd]. f_equal; lra.
Qed.
