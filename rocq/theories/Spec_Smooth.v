(** Vocabulary of the smoother properties (C36-C38). *)
From Coq Require Import Reals.
From Verif Require Import Base NumReal LibR Smooth.
Set Implicit Arguments.
Local Open Scope R_scope.

(** * Alpha-beta smoother (C36) *)
(** calls of one smoother; the allowed area belongs to the level of the call *)
Inductive abop (F : Type) := ASmooth : (F -> F -> bool) -> position F -> abop F | AReset : position F -> abop F.
Definition abop_pos {F : Type} (o : abop F) : position F := match o with ASmooth _ p => p | AReset p => p end.
Section Ab.
Context {F : Type} {NF : Num F}.
Fixpoint ab_run (s : settings F) (a : absm F) (ops : list (abop F)) : absm F * list (position F) :=
  match ops with
  | [] => (a, [])
  | ASmooth al p :: t => let '(a, r) := ab_smooth s al a p in let '(a, rs) := ab_run s a t in (a, r :: rs)
  | AReset p :: t => ab_run s (ab_reset a p) t
  end.
End Ab.
Definition at_point (p : position RX) (x y : R) : Prop := p_x p = Some x /\ p_y p = Some y.
Definition ab_state (a : absm RX) (x y vx vy : R) : Prop :=
  at_point (ab_pos a) x y /\ ab_vx a = Some vx /\ ab_vy a = Some vy.
Definition speed2 (vx vy : R) : R := vx * vx + vy * vy.
Definition ab_good (s : settings RX) (a : absm RX) : Prop :=
  exists x y vx vy, ab_state a x y vx vy /\ (s_speedcon s = true -> speed2 vx vy <= 16).
Definition real_point (p : position RX) : Prop := exists x y, at_point p x y.
(** convex combination of prediction and measurement *)
Definition blend (g pred meas : R) : R := (1 - g) * pred + g * meas.
(** corrected speed *)
Definition correct_speed (g t v pred meas : R) : R := v + g * g / (2 - g) / t * (meas - pred).

(** * Time smoother (C37) *)
(** states reached by calls with non-empty positions at non-decreasing times;
    [h] the positions supplied, newest first, [T] the time of the last call *)
Inductive time_reach : list (position RX) -> Z -> tsm RX -> Prop :=
  | TR0 T : time_reach [] T tsm0
  | TRcall h T m p ts : time_reach h T m -> p_empty p = false -> p_level p <> ""%string -> real_point p -> (T <= ts)%Z ->
      time_reach (p :: h) ts (fst (time_smooth m p ts)).
(** [q] is the point at fraction [w] of the way from [a] to [b] *)
Definition on_segment (a b q : position RX) (w : R) : Prop :=
  exists ax ay bx by_, at_point a ax ay /\ at_point b bx by_ /\
    at_point q ((1 - w) * ax + w * bx) ((1 - w) * ay + w * by_).

(** * Polynomial fit (C38) *)
(** states of a fit fed with real samples; [ord]: times never decrease *)
Inductive pf_reach (ord : Prop) (c : pfconf RX) : polyfit RX -> Prop :=
  | PR0 : pf_reach ord c (pf0 c)
  | PRadd f x y f' : pf_reach ord c f -> (ord -> forall u, In (Some u) (pf_x f) -> u <= x) ->
      pf_add c f (Some x) (Some y) = Ok f' -> pf_reach ord c f'
  | PRclear f : pf_reach ord c f -> pf_reach ord c (pf_clear f)
  | PRpredict f t : pf_reach ord c f -> pf_reach ord c (fst (pf_predict c f t)).
(** the samples in the window *)
Definition window_of (f : polyfit RX) (ps : list (R * R)) : Prop :=
  pf_x f = map (fun p => Some (fst p)) ps /\ pf_y f = map (fun p => Some (snd p)) ps.
Definition ssr (a b : R) (ps : list (R * R)) : R :=
  rsum (map (fun p => (snd p - (a + b * fst p)) * (snd p - (a + b * fst p))) ps).
Definition two_times (ps : list (R * R)) : Prop := exists p q, In p ps /\ In q ps /\ fst p <> fst q.
(** states of the least-squares smoother fed with real positions *)
Inductive lsq_reach (s : settings RX) : lsq RX -> Prop :=
  | LR0 : lsq_reach s (lsq0 s)
  | LRsmooth al q p q' r : lsq_reach s q -> real_point p -> lsq_smooth s al q p = Ok (q', r) -> lsq_reach s q'
  | LRreset q p : lsq_reach s q -> lsq_reach s (lsq_reset q p).
(** (a, b) is the least-squares line of the samples, and the only one *)
Definition best_fit (ps : list (R * R)) (a b : R) : Prop :=
  (forall a' b', ssr a b ps <= ssr a' b' ps) /\ (forall a' b', ssr a' b' ps <= ssr a b ps -> a' = a /\ b' = b).
