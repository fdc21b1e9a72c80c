(** C36-C38: position smoothers. *)
From Coq Require Import Reals Lra.
From Verif Require Import Lib NumOrd NumReal NumFloat LibR SortInst Smooth Spec_Smooth Pf_Smooth Spec_SmoothT Pf_SmoothT Ex P_Post.
Local Open Scope string_scope.
Local Open Scope list_scope.
#[local] Existing Instance nf.
#[local] Existing Instance isorter.

(** ** C36: alpha-beta smoother *)
(** in doubles: whatever the deviations, the adaptive gain is neither below 0.1 nor above 0.9 *)
Theorem C36_gain {F} {NF : Num F} {NO : NumOrd F} (s : settings F) old new : s_accsmooth s = true ->
  ((max_alpha : F) <! min_alpha) = false ->
  (ab_gain s old new <! min_alpha) = false /\ (max_alpha <! ab_gain s old new) = false.
Proof. exact (@gain_bounds F NF NO s old new). Qed.
Print Assumptions C36_gain.

Theorem C36_gain_formula (s : settings RX) w (old new : position RX) : s_smoothing s = Some w ->
  (s_accsmooth s = false -> ab_gain s old new = (Some (9 / 10 - 8 / 10 * Rmin 1 (Rmax 0 w)) : RX)%R) /\
  (s_accsmooth s = true -> forall d e, p_dev old = Some d -> p_dev new = Some e -> (0 <= d)%R -> (0 <= e)%R ->
     ab_gain s old new = (Some (Rmin (9 / 10) (Rmax (1 / 10) (d / (e + d + 1 / 2)))) : RX)%R).
Proof.
  intros Hw. split; intros Ha; [exact (@gain_const s w old new Ha Hw)|].
  intros d e Hd He H0 H1. destruct (@gain_acc s old new Ha) as (g & Eg & _ & H). rewrite Eg. f_equal. exact (H d e Hd He H0 H1).
Qed.
Print Assumptions C36_gain_formula.

Theorem C36_step (s : settings RX) w al (a : absm RX) (p : position RX) x y vx vy mx my :
  s_smoothing s = Some w -> ab_state a x y vx vy -> at_point p mx my ->
  ((p_ts p <= p_ts (ab_pos a))%Z /\ ab_smooth s al a p = (a, ab_pos a)) \/
  ((p_ts (ab_pos a) < p_ts p)%Z /\
   exists g, ab_gain s (ab_pos a) p = Some g /\ (1 / 10 <= g <= 9 / 10)%R /\
   let t := (IZR (p_ts p - p_ts (ab_pos a)) / 1000)%R in
   let X := blend g (x + vx * t) mx in let Y := blend g (y + vy * t) my in
   let VX := correct_speed g t vx (x + vx * t) mx in let VY := correct_speed g t vy (y + vy * t) my in
   let ok := ab_called a = true /\ (t <= 10)%R /\ (s_speedcon s = true -> (sqrt (speed2 VX VY) <= 4)%R) /\
             (s_barriers s = true -> al (Some X) (Some Y) = true) in
   (ok -> exists r, ab_smooth s al a p = (mkAB true (Some VX) (Some VY) r, r) /\ at_point r X Y /\ p_ts r = p_ts p /\
      p_level r = p_level p /\ p_empty r = p_empty p /\
      forall d, p_dev p = Some d -> p_dev r = Some (if s_accsmooth s then d + (1 - g) * (t * sqrt (speed2 VX VY)) else d)%R) /\
   (~ ok -> ab_smooth s al a p = (mkAB true (Some 0%R) (Some 0%R) p, p))).
Proof. exact (@ab_step s w al a p x y vx vy mx my). Qed.
Print Assumptions C36_step.

(** over a whole history the state stays defined and the stored speed within 4 m/s *)
Theorem C36_history (s : settings RX) w ops : s_smoothing s = Some w -> Forall (fun o => real_point (abop_pos o)) ops ->
  ab_good s (fst (ab_run s ab0 ops)) /\ Forall real_point (snd (ab_run s ab0 ops)).
Proof. intros Hw. exact (@ab_history s w ops Hw ab0 (ab_good0 s)). Qed.
Print Assumptions C36_history.

(** the speed constraint does not bound the output: a jump of 100 m in one second is passed through *)
Definition ex_sm : settings SF := ex_set false true true.
Theorem C36_displacement_refuted : exists (s : settings SF) al p q a,
  s_speedcon s = true /\ ab_smooth s al ab0 p = (a, p) /\ p_ts q = (p_ts p + 1000)%Z /\ p_x p = f0 /\ p_x q = fofZ 100 /\
  snd (ab_smooth s al a q) = q.
Proof.
  exists ex_sm, (fun _ _ => true), (ex_p f0 f0 (fofZ 5) 1000), (ex_p (fofZ 100) f0 (fofZ 5) 2000). eexists.
  repeat split; vm_compute; reflexivity.
Qed.
Print Assumptions C36_displacement_refuted.

Example C36_example_gain : ((max_alpha : SF) <! min_alpha) = false /\ ((max_alpha : RX) <! min_alpha) = false.
Proof.
  split; [vm_compute; reflexivity|].
  unfold max_alpha, min_alpha. rewrite (@rx_lit 9 10), (@rx_lit 1 10) by lra. rewrite rx_ltb. apply Rltb_false. lra.
Qed.
(** a slow walk is smoothed: three calls, the third blended *)
Example C36_example :
  let ps := [ex_p f0 f0 (fofZ 5) 1000; ex_p (fofZ 1) f0 (fofZ 5) 2000; ex_p (fofZ 3) f0 (fofZ 5) 3000] in
  let r := ab_run ex_sm ab0 (map (ASmooth (fun _ _ => true)) ps) in
  List.length (snd r) = 3%nat /\ map (fun p => p_x p <! fofZ 3) (snd r) = [true; true; true] /\
  (f0 <! ab_vx (fst r)) = true /\ Forall real_point (map abop_pos (map (ASmooth (fun _ _ => true)) [(ex_p f0 f0 f0 1000 : position RX)])).
Proof.
  split; [vm_compute; reflexivity|]. split; [vm_compute; reflexivity|]. split; [vm_compute; reflexivity|].
  repeat constructor. exists 0%R, 0%R. split; apply rx_f0.
Qed.

(** ** C37: time smoother *)
Theorem C37_interpolates h T m p ts : time_reach h T m -> p_empty p = false -> p_level p <> "" -> real_point p -> (T <= ts)%Z ->
  let q := snd (time_smooth m p ts) in
  q = p \/ exists a b w, In a (p :: h) /\ In b (p :: h) /\ p_level a = p_level p /\ p_level b = p_level p /\
    (p_ts a <= p_ts b)%Z /\ (p_ts p <= p_ts b)%Z /\ (p_ts b <= ts)%Z /\ (0 <= w <= 1)%R /\
    on_segment a b q w /\ p_level q = p_level p /\ p_empty q = false /\
    ((p_ts a < p_ts b)%Z -> w = (IZR (ts - p_ts b) / IZR (p_ts b - p_ts a))%R /\ p_ts q = ts).
Proof. exact (@time_interpolates h T m p ts). Qed.
Print Assumptions C37_interpolates.

(** the segment is that of the last two known positions: of the positions of the level that were later
    than all before, the two newest; the fraction is the time since the newest over the time between
    them, and a call later than that passes its position on *)
Theorem C37_last_two (m : tsm RX) L h p ts b a r : p_level (tm_prev m) <> L -> same_level L ((p, ts) :: h) ->
  records ((p, ts) :: h) = b :: a :: r -> (p_ts b <= ts)%Z -> real_point a -> real_point b ->
  let q := snd (time_smooth (time_fed m h) p ts) in
  ((p_ts b - p_ts a < ts - p_ts b)%Z -> q = p) /\
  ((ts - p_ts b <= p_ts b - p_ts a)%Z -> p_ts q = ts /\ p_level q = L /\
     on_segment a b q (IZR (ts - p_ts b) / IZR (p_ts b - p_ts a))%R).
Proof. exact (@last_two m L h p ts b a r). Qed.
Print Assumptions C37_last_two.
(** four calls, one of them repeating a position: the last two known are those of times 9000 and 8000 *)
Example C37_example_last_two :
  let p := fun x t => (ex_p (fofZ x) f0 f0 t : position RX) in
  let h := [(p 10%Z 9000%Z, 9200%Z); (p 0%Z 8000%Z, 8000%Z); (p 3%Z 7000%Z, 7000%Z)] in
  p_level (tm_prev (tsm0 : tsm RX)) <> "L" /\ same_level (p_level (p 0%Z 0%Z)) ((p 10%Z 9000%Z, 9500%Z) :: h) /\
  records ((p 10%Z 9000%Z, 9500%Z) :: h) = [p 10%Z 9000%Z; p 0%Z 8000%Z; p 3%Z 7000%Z] /\
  real_point (p 10%Z 9000%Z) /\ (9500 - 9000 <= 9000 - 8000)%Z.
Proof.
  cbv zeta. split; [discriminate|]. split.
  { repeat (apply Forall_cons; [split; [reflexivity|split; [reflexivity|cbn; lia]]|]). apply Forall_nil. }
  split; [reflexivity|]. split; [|lia]. exists 10%R, 0%R. split; [apply rx_ofZ|apply rx_f0].
Qed.

(** with times going back the result is outside the segment *)
Definition ex_feed (m : tsm SF) (l : list (position SF * Z)) : tsm SF :=
  fold_left (fun m c => fst (time_smooth m (fst c) (snd c))) l m.
Theorem C37_time_back_refuted : exists l p ts q,
  snd (time_smooth (ex_feed tsm0 l) p ts) = q /\
  Forall (fun c => (p_ts (fst c) <= snd c)%Z /\ (f0 <=! p_x (fst c)) = true) l /\ (f0 <=! p_x p) = true /\ (p_ts p <= ts)%Z /\
  (p_x q <! f0) = true.
Proof.
  exists [(ex_p f0 f0 (fofZ 5) 8000, 8000%Z); (ex_p (fofZ 10) f0 (fofZ 5) 9000, 9000%Z)], (ex_p f0 f0 (fofZ 5) 1000), 2000%Z.
  eexists. split; [reflexivity|]. split; [repeat constructor; vm_compute; congruence|]. repeat split; vm_compute; congruence.
Qed.
Print Assumptions C37_time_back_refuted.

(** two positions a second apart, asked half a second later: the midpoint *)
Example C37_example :
  p_x (snd (time_smooth (ex_feed tsm0 [(ex_p f0 f0 (fofZ 5) 8000, 8000%Z); (ex_p (fofZ 10) f0 (fofZ 5) 9000, 9000%Z)])
    (ex_p (fofZ 10) f0 (fofZ 5) 9000) 9500)) = fofZ 5.
Proof. vm_compute; reflexivity. Qed.
Example C37_example_reach : exists h T m, time_reach h T m /\ List.length h = 2%nat.
Proof.
  exists [ex_p (fofZ 10) f0 f0 9000; ex_p f0 f0 f0 8000], 9000%Z. eexists. split; [|reflexivity].
  eapply TRcall; [eapply TRcall; [exact (TR0 8000)|..]|..]; try reflexivity; try lia; try discriminate.
  - exists 0%R, 0%R. split; apply rx_f0.
  - exists 10%R, 0%R. split; [apply rx_ofZ|apply rx_f0].
Qed.

(** ** C38: least-squares fit *)
Theorem C38_best_line ord c f ps : pc_power c = 1%nat -> pf_reach ord c f -> window_of f ps -> two_times ps ->
  exists a b, pf_coeff f = [Some a; Some b] /\ best_fit ps a b.
Proof. exact (@fit_correct ord c f ps). Qed.
Print Assumptions C38_best_line.

Theorem C38_collinear ord c f ps q m : pc_power c = 1%nat -> pf_reach ord c f -> window_of f ps -> two_times ps ->
  Forall (fun p => snd p = q + m * fst p)%R ps -> pf_coeff f = [Some q; Some m].
Proof. exact (@collinear ord c f ps q m). Qed.
Print Assumptions C38_collinear.

Theorem C38_single (c : pfconf RX) (f : polyfit RX) x y t : window_of f [(x, y)] -> defined (pc_shift c) ->
  snd (pf_predict c f (Some t : RX)) = Some y.
Proof. exact (@predict_single c f x y t). Qed.
Print Assumptions C38_single.

Theorem C38_output (s : settings RX) al (q q' : lsq RX) (p r : position RX) w sh lx ly ps qs :
  lsq_reach s q -> lq_called q = true -> real_point p -> lsq_smooth s al q p = Ok (q', r) ->
  s_smoothing s = Some w -> s_shift s = Some sh -> pf_last (lq_x q) = Some lx -> pf_last (lq_y q) = Some ly ->
  window_of (lq_x q') ps -> window_of (lq_y q') qs -> two_times ps -> two_times qs ->
  exists ax bx ay by_, best_fit ps ax bx /\ best_fit qs ay by_ /\
    let t := (IZR (p_ts p - lq_start q) / 1000 - sh)%R in let k := Rmin 1 (Rmax 0 w) in
    let X := (k * (ax + bx * t) + (1 - k) * lx)%R in let Y := (k * (ay + by_ * t) + (1 - k) * ly)%R in
    r = pos_set_xy p (Some X) (Some Y) /\ pf_last (lq_x q') = Some X /\ pf_last (lq_y q') = Some Y.
Proof. exact (@lsq_output s al q q' p r w sh lx ly ps qs). Qed.
Print Assumptions C38_output.

(** a change of level forgets the track: the first position after a reset is passed through and is the
    only sample of the new window, whose times count from the position of the reset *)
Theorem C38_reset (s : settings RX) al (q : lsq RX) (p0 p : position RX) m r x y : defined (s_shift s) -> at_point p x y ->
  sm_smooth s al (sm_reset (SLsq q) p0) p = Ok (m, r) ->
  r = p /\ exists q', m = SLsq q' /\ (lq_called q = true -> (s_barriers s = true -> al (Some x) (Some y) = true) ->
    let t := (IZR (p_ts p - p_ts p0) / 1000)%R in
    window_of (lq_x q') [(t, x)] /\ window_of (lq_y q') [(t, y)] /\ lq_start q' = p_ts p0).
Proof. exact (@reset_output s al q p0 p m r x y). Qed.
Print Assumptions C38_reset.
(** in doubles: a smoother that has followed a track to x = 9 passes on the x = 100 of another
    level and keeps one sample; without the reset it keeps two *)
Example C38_example_reset :
  let p := fun x t => ex_p (fofZ x) f0 (fofZ 5) t in
  let run := fun (m : res (smoother SF)) x t => m <- m ;; '(m, _) <- sm_smooth ex_sm (fun _ _ => true) m (p x t) ;; Ok m in
  match run (run (run (Ok (SLsq (lsq0 ex_sm))) 1%Z 1000%Z) 5%Z 2000%Z) 9%Z 3000%Z with
  | Ok m => match sm_smooth ex_sm (fun _ _ => true) (sm_reset m (p 100%Z 4000%Z)) (p 100%Z 4000%Z) with
            | Ok (SLsq q, r) => p_x r = fofZ 100 /\ List.length (pf_x (lq_x q)) = 1%nat
            | _ => False end /\
            match sm_smooth ex_sm (fun _ _ => true) m (p 100%Z 4000%Z) with
            | Ok (SLsq q, _) => List.length (pf_x (lq_x q)) = 2%nat
            | _ => False end
  | _ => False end.
Proof. vm_compute. repeat split; congruence. Qed.

(** without samples the prediction is -1, but a sample that was accepted leaves the window non-empty,
    so the smoother never reports this value *)
Theorem C38_no_sample {F} {NF : Num F} (c : pfconf F) f : (pf_y f = [] -> forall t, pf_predict c f t = (f, fofZ (-1))) /\
  (forall x y f', pf_add c f x y = Ok f' -> pf_y f' <> []).
Proof. split; [intros H t; unfold pf_predict; rewrite H; reflexivity|]. intros x y f'. exact (@add_nonempty F NF c f x y f'). Qed.
Print Assumptions C38_no_sample.

Theorem C38_window (c : pfconf RX) (f : polyfit RX) int : pf_reach True c f -> pc_int c = Some int ->
  forall u w, In (Some u) (pf_x f) -> In (Some w) (pf_x f) -> (w - u <= int)%R.
Proof. exact (@window_span c f int). Qed.
Print Assumptions C38_window.

Theorem C38_negative_window (c : pfconf RX) (f : polyfit RX) int x y : pc_int c = Some int -> (int < 0)%R ->
  (forall u, In u (pf_x f) -> exists r, u = Some r /\ (r <= x)%R) -> List.length (pf_x f) = List.length (pf_y f) ->
  match back (pf_y f) with None => True | Some l => fneb l (Some y : RX) = true end ->
  pf_add c f (Some x : RX) (Some y : RX) = UB.
Proof. exact (@negative_window c f int x y). Qed.
Print Assumptions C38_negative_window.

(** a repeated coordinate is not added, so standing still lets the window age without limit
    and its points stay in the fit *)
Theorem C38_repeated_ignored {F} {NF : Num F} (c : pfconf F) f x y l : back (pf_y f) = Some l -> fneb l y = false ->
  exists f', pf_add c f x y = Ok f' /\ pf_x f' = pf_x f /\ pf_y f' = pf_y f /\ pf_coeff f' = pf_coeff f.
Proof.
  intros Hb Hn. unfold pf_add. rewrite Hb, Hn. eexists. split; [reflexivity|]. cbn.
  repeat split. destruct (pf_y f); [discriminate|reflexivity].
Qed.
Print Assumptions C38_repeated_ignored.

(** the line through (0,1), (1,3), (2,5) in doubles *)
Definition ex_pow (x n : SF) : SF := if n =! fofZ 0 then f1 else if n =! fofZ 2 then x *! x else x.
Definition ex_sq : Num SF := num_float (mkTransc (tr_exp tr0) (tr_log tr0) (tr_sin tr0) (tr_cos tr0) (tr_asin tr0) (tr_atan2 tr0) ex_pow).
Definition ex_fit : res (polyfit SF) :=
  let c := mkPFC 1 (fofZ 10) f0 f1 in
  a <- @pf_add SF ex_sq c (pf0 c) f0 (fofZ 1) ;; a <- @pf_add SF ex_sq c a (fofZ 1) (fofZ 3) ;; @pf_add SF ex_sq c a (fofZ 2) (fofZ 5).
Example C38_example : match ex_fit with
  | Ok f => List.length (pf_x f) = 3%nat /\
      fabs (nth 0 (pf_coeff f) f0 -! fofZ 1) <! lit 1 1000000 = true /\ fabs (nth 1 (pf_coeff f) f0 -! fofZ 2) <! lit 1 1000000 = true
  | _ => False end.
Proof. vm_compute. repeat split; reflexivity. Qed.
Example C38_example_two_times : two_times [(0, 1); (1, 3)]%R.
Proof. exists (0, 1)%R, (1, 3)%R. cbn [In fst]. split; [auto|]. split; [auto|]. lra. Qed.
Example C38_example_negative : pf_add (mkPFC 1 (fofZ (-1)) f0 f1) (pf0 (mkPFC 1 (fofZ (-1)) f0 f1)) f0 (fofZ 1 : SF) = UB.
Proof. vm_compute; reflexivity. Qed.
