(** Position smoothers.  Models src/position_postprocessor/{polynomial_fit,
    position_smoother_ab, position_smoother_lstsq, navigation_time_smoother}. *)
From Verif Require Export Geo.
Set Implicit Arguments.

(** polynomial_fit.h:31-39; [pf_x], [pf_y] hold the deques mX, mY front first *)
Record polyfit (F : Type) := mkPF { pf_last : F; pf_x : list F; pf_y : list F; pf_coeff : list F }.
(** polynomial_fit.h:31-34 constants: power, interval, shift, weight *)
Record pfconf (F : Type) := mkPFC { pc_power : nat; pc_int : F; pc_shift : F; pc_weight : F }.

(** position_smoother_ab.h:20-27 *)
Record absm (F : Type) := mkAB { ab_called : bool; ab_vx : F; ab_vy : F; ab_pos : position F }.
(** position_smoother_lstsq.h:19-26; mStartTime is assigned before it is read *)
Record lsq (F : Type) := mkLsq { lq_called : bool; lq_x : polyfit F; lq_y : polyfit F; lq_start : Z }.
(** navigation_time_smoother.h:21-22 *)
Record tsm (F : Type) := mkTsm { tm_prev : position F; tm_next : position F }.
(** position_smoother.h:12-18: which of the two smoothers is in use *)
Inductive smoother (F : Type) := SAB : absm F -> smoother F | SLsq : lsq F -> smoother F.

Section Smooth.
Context {F : Type} {NF : Num F}.

(** * Polynomial fit *)
Definition pf0 (c : pfconf F) : polyfit F := mkPF f0 [] [] (repeat f0 (S (pc_power c))).

(** polynomial_fit.cpp:37-44 removeOldPoints; reading back() of an emptied
    deque is undefined *)
Fixpoint remove_old (int bx : F) (xs ys : list F) : res (list F * list F) :=
  match xs, ys with
  | x :: xt, y :: yt => if int <! (bx -! x) then remove_old int bx xt yt else Ok (xs, ys)
  | _, _ => UB
  end.

Definition setf {A : Type} (f : nat -> A) (i : nat) (v : A) : nat -> A :=
  fun k => if Nat.eqb k i then v else f k.

(** polynomial_fit.cpp:171-176 rotation of rows k and j from column k on;
    columns are independent of each other *)
Definition rotate (n k j : nat) (E : nat -> nat -> F) : nat -> nat -> F :=
  let c := E k k in
  let s := E j k in
  let norm := fsqrt (c *! c +! s *! s) in
  let c := c /! norm in
  let s := s /! norm in
  fun r i =>
    if Nat.leb k i && Nat.leb i n then
      if Nat.eqb r j then c *! E j i -! s *! E k i
      else if Nat.eqb r k then s *! E j i +! c *! E k i
      else E r i
    else E r i.

(** polynomial_fit.cpp:181-184 one component of the back substitution *)
Definition back_subst (n : nat) (E : nat -> nat -> F) (x : nat -> F) (k : nat) : nat -> F :=
  let v := fold_left (fun v i => v -! E k i *! x i) (seq (S k) (n - S k)) (E k n) in
  setf x k (v /! E k k).

(** polynomial_fit.cpp:146-187 solveLinearSystem; [E] is the extended matrix *)
Definition solve_linear (n : nat) (E : nat -> nat -> F) : nat -> F :=
  let E := fold_left (fun E k => fold_left (fun E j => rotate n k j E) (seq (S k) (n - S k)) E)
             (seq 0 n) E in
  fold_left (fun x k => back_subst n E x k) (rev (seq 0 n)) (fun _ => f0).

(** polynomial_fit.cpp:115-139: sub and b *)
Definition pf_sub (xs : list F) (i : nat) : F := fsum (fun x => fpowi x i) xs.
Definition pf_b (xs ys : list F) (i : nat) : F :=
  fsum (fun xy => fpowi (fst xy) i *! snd xy) (combine xs ys).
(** polynomial_fit.cpp:125-128, 152-160 the extended matrix; A is symmetric so
    its storage order is immaterial *)
Definition pf_matrix (n : nat) (xs ys : list F) : nat -> nat -> F :=
  fun i j => if Nat.eqb j n then pf_b xs ys i else pf_sub xs (i + j).

(** polynomial_fit.cpp:108-144 getLeastSquaresCoeff *)
Definition ls_coeff (c : pfconf F) (xs ys : list F) : list F :=
  let n := S (pc_power c) in
  map (solve_linear n (pf_matrix n xs ys)) (seq 0 n).

(** polynomial_fit.cpp:22-35 addSequencePoint *)
Definition pf_add (c : pfconf F) (p : polyfit F) (x y : F) : res (polyfit F) :=
  let coeff := match pf_y p with [] => repeat f0 (S (pc_power c)) | _ => pf_coeff p end in
  let fresh := match back (pf_y p) with None => true | Some l => fneb l y end in
  if fresh then
    '(xs, ys) <- remove_old (pc_int c) x (pf_x p ++ [x]) (pf_y p ++ [y]) ;;
    Ok (mkPF (pf_last p) xs ys (if Nat.ltb (pc_power c) (List.length ys) then ls_coeff c xs ys else coeff))
  else Ok (mkPF (pf_last p) (pf_x p) (pf_y p) coeff).

(** polynomial_fit.cpp:46-50 clear *)
Definition pf_clear (p : polyfit F) : polyfit F := mkPF (pf_last p) [] [] (pf_coeff p).

(** polynomial_fit.cpp:75-94 getLagrangeSolution *)
Definition lagrange (c : pfconf F) (xs ys : list F) (t : F) : F :=
  let time := t -! pc_shift c in
  let n := List.length ys in
  fold_left (fun out i =>
    let xi := nth i xs f0 in
    let mult := fold_left (fun m j =>
      if negb (Nat.eqb i j) then m *! ((time -! nth j xs f0) /! (xi -! nth j xs f0)) else m)
      (seq 0 n) f1 in
    out +! nth i ys f0 *! mult) (seq 0 n) f0.

(** polynomial_fit.cpp:96-106 getLeastSquaresSolution *)
Definition ls_solution (c : pfconf F) (coeff : list F) (t : F) : F :=
  let time := t -! pc_shift c in
  fold_left (fun out i => out +! nth i coeff f0 *! fpowi time i) (seq 0 (S (pc_power c))) f0.

(** polynomial_fit.cpp:52-73 predict *)
Definition pf_predict (c : pfconf F) (p : polyfit F) (t : F) : polyfit F * F :=
  let n := List.length (pf_y p) in
  if Nat.eqb n 0 then (p, fofZ (-1))
  else
    let out :=
      if Nat.eqb n 1 || Nat.ltb n (S (pc_power c)) then lagrange c (pf_x p) (pf_y p) t
      else ls_solution c (pf_coeff p) t *! pc_weight c +! pf_last p *! (f1 -! pc_weight c) in
    (mkPF out (pf_x p) (pf_y p) (pf_coeff p), out).

(** * Least-squares smoother *)
Definition clamp01 (x : F) : F := fmin f1 (fmax f0 x).
(** position_smoother_lstsq.cpp:7-16 *)
Definition lsq_conf (s : settings F) : pfconf F :=
  mkPFC 1 (s_avg s) (s_shift s) (clamp01 (s_smoothing s)).
Definition lsq0 (s : settings F) : lsq F := mkLsq false (pf0 (lsq_conf s)) (pf0 (lsq_conf s)) 0.

(** position_smoother_lstsq.cpp:18-49 smoothPosition; [allowed] is the allowed
    area of the level *)
Definition lsq_smooth (s : settings F) (allowed : F -> F -> bool) (q : lsq F) (p : position F) :
    res (lsq F * position F) :=
  if negb (lq_called q) then Ok (mkLsq true (lq_x q) (lq_y q) (p_ts p), p)
  else
    let c := lsq_conf s in
    let t := fofZ (p_ts p - lq_start q) /! fofZ 1000 in
    fx <- pf_add c (lq_x q) t (p_x p) ;;
    fy <- pf_add c (lq_y q) t (p_y p) ;;
    let '(fx, xs) := pf_predict c fx t in
    let '(fy, ys) := pf_predict c fy t in
    if s_barriers s && negb (allowed xs ys)
    then Ok (mkLsq true (pf_clear fx) (pf_clear fy) (p_ts p), p)
    else
      let p := if fisfinite xs && fisfinite ys then pos_set_xy p xs ys else p in
      Ok (mkLsq true fx fy (lq_start q), p).
(** position_smoother_lstsq.cpp:51-56 reset *)
Definition lsq_reset (q : lsq F) (p : position F) : lsq F :=
  mkLsq (lq_called q) (pf_clear (lq_x q)) (pf_clear (lq_y q)) (p_ts p).

(** * Alpha-beta smoother *)
Definition min_alpha : F := lit 1 10.
Definition max_alpha : F := lit 9 10.
Definition ab0 : absm F := mkAB false f0 f0 pos0.
(** position_smoother_ab.cpp:20-22 *)
Definition ab_alpha (s : settings F) : F :=
  let sm := clamp01 (s_smoothing s) in
  min_alpha *! sm +! max_alpha *! (f1 -! sm).
(** position_smoother_ab.cpp:31-37 *)
Definition ab_gain (s : settings F) (old new : position F) : F :=
  if s_accsmooth s then
    let na := p_dev old /! (p_dev new +! p_dev old +! lit 5 10) in
    fmin (fmax min_alpha na) max_alpha
  else ab_alpha s.

(** position_smoother_ab.cpp:25-85 smoothPosition *)
Definition ab_smooth (s : settings F) (allowed : F -> F -> bool) (a : absm F) (p : position F) :
    absm F * position F :=
  let old := ab_pos a in
  if (p_ts old <? p_ts p)%Z then
    let t := fofZ (p_ts p - p_ts old) /! fofZ 1000 in
    let g := ab_gain s old p in
    let b := g *! g /! (fofZ 2 -! g) in
    let xp := p_x old +! ab_vx a *! t in
    let vxp := ab_vx a +! (b /! t) *! (p_x p -! xp) in
    let xs := xp +! g *! (p_x p -! xp) in
    let yp := p_y old +! ab_vy a *! t in
    let vyp := ab_vy a +! (b /! t) *! (p_y p -! yp) in
    let ys := yp +! g *! (p_y p -! yp) in
    let velocity := fsqrt (vxp *! vxp +! vyp *! vyp) in
    let toolong := fofZ 10 <! t in
    let toofast := s_speedcon s && (fofZ 4 <! velocity) in
    let barrier := s_barriers s && negb (allowed xs ys) in
    if negb (ab_called a) || toolong || toofast || barrier
    then (mkAB true f0 f0 p, p)
    else
      let p := if fisfinite xs && fisfinite ys then pos_set_xy p xs ys else p in
      let np :=
        if s_accsmooth s then
          let pred := p_dev p +! t *! fsqrt (vxp *! vxp +! vyp *! vyp) in
          pos_set_dev p ((f1 -! g) *! pred +! g *! p_dev p)
        else p in
      (mkAB (ab_called a) vxp vyp np, np)
  else (a, old).
(** position_smoother_ab.cpp:87-92 reset *)
Definition ab_reset (a : absm F) (p : position F) : absm F := mkAB (ab_called a) f0 f0 p.

(** * Virtual dispatch *)
Definition sm_reset (m : smoother F) (p : position F) : smoother F :=
  match m with SAB a => SAB (ab_reset a p) | SLsq q => SLsq (lsq_reset q p) end.
Definition sm_smooth (s : settings F) (allowed : F -> F -> bool) (m : smoother F) (p : position F) :
    res (smoother F * position F) :=
  match m with
  | SAB a => let '(a, p) := ab_smooth s allowed a p in Ok (SAB a, p)
  | SLsq q => '(q, p) <- lsq_smooth s allowed q p ;; Ok (SLsq q, p)
  end.

(** * Time smoother *)
Definition tsm0 : tsm F := mkTsm pos0 pos0.
(** navigation_time_smoother.cpp:23-66 getTimeSmoothedPosition *)
Definition time_smooth (m : tsm F) (p : position F) (ts : Z) : tsm F * position F :=
  if (ts <? p_ts p)%Z then (m, p)
  else if negb (String.eqb (p_level (tm_prev m)) (p_level p))
          || negb (String.eqb (p_level (tm_next m)) (p_level p)) then (mkTsm p p, p)
  else if p_empty (tm_prev m) || p_empty (tm_next m) || p_empty p then (mkTsm (tm_next m) p, p)
  else
    let m := if (p_ts (tm_next m) <? p_ts p)%Z then mkTsm (tm_next m) p else m in
    let nx := tm_next m in
    let pv := tm_prev m in
    if (p_ts nx =? p_ts pv)%Z then (m, nx)
    else
      let act := fofZ (ts - p_ts nx) in
      let kept := fofZ (p_ts nx - p_ts pv) in
      if kept <! act then (m, p)
      else
        let x := (p_x nx *! act +! p_x pv *! (kept -! act)) /! kept in
        let y := (p_y nx *! act +! p_y pv *! (kept -! act)) /! kept in
        (m, pos_set_ts (pos_set_xy nx x y) ts).
End Smooth.
