(** C110, C111: the linear solver of any size and the polynomial fit of any power. *)
From Coq Require Import Reals Lra Lia.
From Verif Require Import Lib NumReal NumFloat LibR SortInst Smooth Spec_Smooth Spec_Poly Pf_Smooth Pf_Lin Pf_Poly Pf_LinSing Pf_PolySm Ex P_Post P_Smooth.
Local Open Scope list_scope.
Local Open Scope R_scope.

(** ** C110: solveLinearSystem *)
(** a matrix whose quadratic form vanishes only at zero is solved exactly, whatever its size *)
Theorem C110_solves n A b : definite n A ->
  exists x, (forall i, (i < n)%nat -> solve_linear n (extended n A b) i = Some (x i)) /\ solves n A b x /\
    forall y, solves n A b y -> forall i, (i < n)%nat -> y i = x i.
Proof.
  intros H. destruct (solver b H) as (x & Hx & Hs). exists x. split; [exact Hx|]. split; [exact Hs|].
  intros y Hy i Hi. exact (solver_unique H Hy Hs Hi).
Qed.
Print Assumptions C110_solves.

(** a symmetric matrix with a non-negative form that vanishes elsewhere gives no number at all *)
Theorem C110_singular n A b : (forall i j, (i < n)%nat -> (j < n)%nat -> A i j = A j i) ->
  (forall y, 0 <= sumn n (fun i => sumn n (fun j => y i * A i j * y j))) -> ~ definite n A ->
  forall i, (i < n)%nat -> solve_linear n (extended n A b) i = None.
Proof. exact (@singular_nan n A b). Qed.
Print Assumptions C110_singular.

(** a regular matrix is not enough: when the first two entries of the first column are zero the
    rotation divides by zero, although the system has exactly one solution *)
Theorem C110_regular_refuted : exists n A b x, solves n A b x /\ (forall y, solves n A b y -> forall i, (i < n)%nat -> y i = x i) /\
  forall i, (i < n)%nat -> solve_linear n (extended n A b) i = None.
Proof.
  exists 3%nat, (fun i j => if Nat.eqb (i + j) 2 then 1 else 0), INR, (fun i => INR (2 - i)).
  assert (E : forall y i, (i < 3)%nat -> sumn 3 (fun j => (if Nat.eqb (i + j) 2 then 1 else 0) * y j) = y (2 - i)%nat).
  { intros y i Hi. destruct i as [|[|[|]]]; [..|lia]; rewrite !sumn_S, sumn_0; cbn; ring. }
  split; [|split].
  - intros i Hi. rewrite (E (fun j => INR (2 - j))) by exact Hi. f_equal. lia.
  - intros y Hy i Hi. assert (X : y (2 - (2 - i))%nat = INR (2 - i)).
    { rewrite <- (E y (2 - i)%nat) by lia. exact (Hy (2 - i)%nat ltac:(lia)). }
    replace (2 - (2 - i))%nat with i in X by lia. exact X.
  - intros i Hi. unfold solve_linear. apply back_broken; [lia| |exact Hi]. left.
    set (G := extended 3 _ INR).
    assert (D : dead 3 0 2 (rotate 3 0 1 G)) by (apply rot_first; [lia|reflexivity|reflexivity]). clearbody G.
    change (seq 0 3) with (0%nat :: seq 1 2). cbn [fold_left]. apply (@dead_stages 3 0 2 1); [lia|lia| |lia|lia].
    change (seq 1 (3 - 1)) with (1%nat :: seq 2 1). cbn [fold_left]. apply dead_rows; [lia|lia|lia|exact D].
Qed.
Print Assumptions C110_regular_refuted.

Example C110_example : definite 3 (fun i j => if Nat.eqb i j then 2 else 1).
Proof.
  intros y (i & Hi & Hy). rewrite !sumn_S, !sumn_0. cbn [Nat.eqb]. intros E.
  assert (Q : y 0%nat * y 0%nat + y 1%nat * y 1%nat + y 2%nat * y 2%nat + (y 0%nat + y 1%nat + y 2%nat) * (y 0%nat + y 1%nat + y 2%nat) = 0) by lra.
  assert (N := Rle_0_sqr (y 0%nat)). assert (N1 := Rle_0_sqr (y 1%nat)). assert (N2 := Rle_0_sqr (y 2%nat)).
  assert (N3 := Rle_0_sqr (y 0%nat + y 1%nat + y 2%nat)). unfold Rsqr in *.
  apply Hy, Rsqr_0_uniq. unfold Rsqr. destruct i as [|[|[|]]]; [..|lia]; lra.
Qed.
Example C110_example_singular : ~ definite 2 (fun _ _ => 1) /\ forall y, 0 <= sumn 2 (fun i => sumn 2 (fun j => y i * 1 * y j)).
Proof.
  split.
  - intros H. apply (H (fun i => if Nat.eqb i 0 then 1 else -1)); [exists 0%nat; split; [lia|cbn; lra]|]. rewrite !sumn_S, !sumn_0. cbn. ring.
  - intros y. rewrite !sumn_S, !sumn_0. assert (N := Rle_0_sqr (y 0%nat + y 1%nat)). unfold Rsqr in N. lra.
Qed.

(** ** C111: polynomial fit of any power *)
Theorem C111_best ord c f ps : pf_reach ord c f -> window_of f ps -> distinct_times (S (pc_power c)) ps ->
  exists cs, pf_coeff f = map (fun v => (Some v : RX)) cs /\ List.length cs = S (pc_power c) /\
    forall ds, List.length ds = S (pc_power c) -> sse cs ps <= sse ds ps /\ (sse ds ps <= sse cs ps -> ds = cs).
Proof. exact (@fit_any ord c f ps). Qed.
Print Assumptions C111_best.

Theorem C111_exact ord c f ps cs : pf_reach ord c f -> window_of f ps -> distinct_times (S (pc_power c)) ps ->
  List.length cs = S (pc_power c) -> Forall (fun p => snd p = peval cs (fst p)) ps -> pf_coeff f = map (fun v => (Some v : RX)) cs.
Proof. exact (@fit_exact ord c f ps cs). Qed.
Print Assumptions C111_exact.

Theorem C111_output ord c f ps t w sh l cs : pf_reach ord c f -> window_of f ps -> (pc_power c < List.length ps)%nat -> (2 <= List.length ps)%nat ->
  pf_coeff f = map (fun v => (Some v : RX)) cs -> List.length cs = S (pc_power c) ->
  pf_last f = Some l -> pc_weight c = Some w -> pc_shift c = Some sh ->
  snd (pf_predict c f (Some t : RX)) = Some (w * peval cs (t - sh) + (1 - w) * l) /\
  pf_last (fst (pf_predict c f (Some t : RX))) = Some (w * peval cs (t - sh) + (1 - w) * l).
Proof. exact (@predict_any ord c f ps t w sh l cs). Qed.
Print Assumptions C111_output.

(** fewer samples than coefficients, or a single one: the prediction is the value of the only polynomial
    with as many coefficients as there are samples that passes through all of them *)
Theorem C111_interpolates ps (c : pfconf RX) f sh : NoDup (map fst ps) -> window_of f ps -> (1 <= List.length ps)%nat ->
  (List.length ps = 1 \/ List.length ps <= pc_power c)%nat -> pc_shift c = Some sh ->
  exists cs, List.length cs = List.length ps /\ (forall p, In p ps -> peval cs (fst p) = snd p) /\
    (forall ds, List.length ds = List.length ps -> (forall p, In p ps -> peval ds (fst p) = snd p) -> forall x, peval ds x = peval cs x) /\
    forall t, snd (pf_predict c f (Some t : RX)) = Some (peval cs (t - sh)).
Proof. intros H. exact (@interpolant ps H c f sh). Qed.
Print Assumptions C111_interpolates.

(** too few different times: no coefficient is a number *)
Theorem C111_degenerate ord c f ps : pf_reach ord c f -> window_of f ps -> (pc_power c < List.length ps)%nat ->
  ~ distinct_times (S (pc_power c)) ps -> pf_coeff f = repeat (None : RX) (S (pc_power c)).
Proof. exact (@fit_degenerate ord c f ps). Qed.
Print Assumptions C111_degenerate.

(** in the smoother: from a window of two or more samples of one time on, the position is passed on
    unsmoothed, and this lasts as long as the window keeps two samples, whatever their times *)
Theorem C111_off (s : settings RX) al q q' p r ps qs : lsq_reach s q -> lq_called q = true -> s_barriers s = false -> real_point p ->
  lsq_smooth s al q p = Ok (q', r) -> window_of (lq_x q') ps -> window_of (lq_y q') qs ->
  (((2 <= List.length ps)%nat /\ (pf_last (lq_x q) = None \/ one_time ps)) -> r = p /\ pf_last (lq_x q') = None) /\
  (((2 <= List.length qs)%nat /\ (pf_last (lq_y q) = None \/ one_time qs)) -> r = p /\ pf_last (lq_y q') = None).
Proof. exact (@smoother_off s al q q' p r ps qs). Qed.
Print Assumptions C111_off.

(** the parabola 1 + x^2 through four samples *)
Example C111_example_reach : exists f, pf_reach True (mkPFC 2 (Some 10 : RX) (Some 0 : RX) (Some 1 : RX)) f /\ window_of f [(0, 1); (1, 2); (2, 5); (3, 10)].
Proof.
  assert (Hs : forall c f x y ps, pc_int c = (Some 10 : RX) -> pf_reach True c f -> window_of f ps -> (forall p, In p ps -> fst p <= x <= 10 + fst p) ->
     (forall p, In p ps -> snd p <> y) -> exists f', pf_reach True c f' /\ window_of f' (ps ++ [(x, y)])).
  { intros c f x y ps Hi HR (Wx & Wy) Hx Hy. destruct (window_snoc x y (conj Wx Wy)) as [Sx Sy].
    assert (Fr : (match back (pf_y f) with None => true | Some l => fneb l (Some y : RX) end) = true).
    { rewrite Wy. clear - Hy. destruct ps as [|p0 ps0] using rev_ind; [reflexivity|]. rewrite map_app. cbn [map].
      unfold back. rewrite rev_app_distr. cbn [rev app hd_error]. unfold fneb. rewrite rx_eqb.
      assert (N := Hy p0 ltac:(apply in_or_app; right; left; reflexivity)). unfold Reqb. destruct (Req_EM_T _ _); [contradiction|reflexivity]. }
    assert (Ro : remove_old (pc_int c) (Some x : RX) (pf_x f ++ [(Some x : RX)]) (pf_y f ++ [(Some y : RX)]) =
      Ok (map (fun p => (Some (fst p) : RX)) (ps ++ [(x, y)]), map (fun p => (Some (snd p) : RX)) (ps ++ [(x, y)]))).
    { rewrite Sx, Sy, Hi. destruct ps as [|p0 ps0]; cbn [app map remove_old]; rewrite rx_sub, rx_ltb.
      - cbn [fst]. unfold Rltb. destruct (Rlt_dec _ _); [lra|reflexivity].
      - assert (N := Hx p0 ltac:(left; reflexivity)). unfold Rltb. destruct (Rlt_dec _ _); [lra|reflexivity]. }
    eexists. split; [eapply PRadd with (x := x) (y := y); [exact HR| |unfold pf_add; rewrite Fr, Ro; reflexivity]|split; reflexivity].
    intros _ u Hu. rewrite Wx in Hu. apply in_map_iff in Hu. destruct Hu as (p & Ep & Hp). injection Ep as <-. apply (Hx p Hp). }
  set (c := mkPFC 2 _ _ _).
  destruct (Hs c _ 0 1 [] eq_refl (PR0 True c) ltac:(split; reflexivity)) as (f1 & R1 & W1); [intros p []|intros p []|].
  destruct (Hs c f1 1 2 _ eq_refl R1 W1) as (f2 & R2 & W2); [cbn [app In]; intros p [<-|[]]; cbn [fst]; lra|cbn [app In]; intros p [<-|[]]; cbn [snd]; lra|].
  destruct (Hs c f2 2 5 _ eq_refl R2 W2) as (f3 & R3 & W3); [cbn [app In]; intros p [<-|[<-|[]]]; cbn [fst]; lra|cbn [app In]; intros p [<-|[<-|[]]]; cbn [snd]; lra|].
  destruct (Hs c f3 3 10 _ eq_refl R3 W3) as (f4 & R4 & W4); [cbn [app In]; intros p [<-|[<-|[<-|[]]]]; cbn [fst]; lra|cbn [app In]; intros p [<-|[<-|[<-|[]]]]; cbn [snd]; lra|].
  exists f4. split; [exact R4|exact W4].
Qed.
Example C111_example : distinct_times 3 [(0, 1); (1, 2); (2, 5); (3, 10)] /\ Forall (fun p => snd p = peval [1; 0; 1] (fst p)) [(0, 1); (1, 2); (2, 5); (3, 10)].
Proof.
  split.
  - exists [0; 1; 2]. split; [|split; [reflexivity|intros x Hx; cbn in *; tauto]].
    repeat constructor; cbn [In]; intros H; repeat destruct H as [H|H]; lra || exact H.
  - repeat constructor; cbn; ring.
Qed.
(** in doubles: two positions of one time stop the smoothing of all later ones *)
Example C111_example_off :
  let p := fun x t => @ex_p SF nf (@fofZ SF nf x) (@f0 SF nf) (@fofZ SF nf 5%Z) t in
  let run := fun ps => fold_left (fun (m : res (lsq SF * list bool)) (a : Z * Z) => '(q, out) <- m ;;
     '(q, r) <- @lsq_smooth SF ex_sq ex_sm (fun _ _ => true) q (p (fst a) (snd a)) ;;
     Ok (q, out ++ [@feqb SF nf (p_x r) (p_x (p (fst a) (snd a)))])) ps (Ok (@lsq0 SF nf ex_sm, [])) in
  match run [(1, 0); (2, 1000); (4, 1000); (5, 1500); (9, 2000); (5, 2500); (3, 3000)]%Z, run [(1, 0); (2, 1000); (5, 1500); (9, 2000); (5, 2500); (3, 3000)]%Z with
  | Ok (q, out), Ok (q', out') => out = [true; true; true; true; true; true; true] /\ out' = [true; true; false; false; false; false] /\
      @feqb SF nf (pf_last (lq_x q)) (pf_last (lq_x q)) = false
  | _, _ => False end.
Proof. vm_compute. repeat split; reflexivity. Qed.
