(** Vocabulary of the post-processing properties (C31-C35). *)
From Coq Require Import Reals.
From Verif Require Import Base NumReal LibR Postproc.
Set Implicit Arguments.
Local Open Scope R_scope.

(** * Fusion (C31) *)
(** real coordinates and deviation of a position *)
Definition at_xy (p : position RX) (x y d : R) : Prop := p_x p = Some x /\ p_y p = Some y /\ p_dev p = Some d.
Definition good_pos (p : position RX) : Prop := p_empty p = true \/ exists x y d, at_xy p x y d /\ 0 < d.
(** a post-processor whose stored deviations are positive *)
Definition good_post (o : post RX) : Prop :=
  (exists i, po_idev o = Some i /\ 0 < i) /\ (exists t, po_odev o = Some t /\ 0 < t) /\
  good_pos (po_in o) /\ good_pos (po_out o).
Record real_settings (s : settings RX) (v pd old bor : R) : Prop := {
  rs_speed : s_speed s = Some v; rs_speed0 : 0 <= v;
  rs_prior : s_priordev s = Some pd; rs_prior0 : 0 < pd;
  rs_old : s_posold s = Some old; rs_border : s_fuseborder s = Some bor }.
(** age in seconds *)
Definition age (ts t : Z) : R := IZR (ts - t) / 1000.
Definition rdelay (ts t : Z) : R := Rmax 0 (age ts t).
Definition rdist (x1 y1 x2 y2 : R) : R := sqrt ((x1 - x2) * (x1 - x2) + (y1 - y2) * (y1 - y2)).
(** [f] fuses indoor [i] and outdoor [t], with current deviations [a], [b] *)
Definition fuses (i t : position RX) (a b : R) (f : position RX) : Prop :=
  exists xi yi di xt yt dt w,
    at_xy i xi yi di /\ at_xy t xt yt dt /\ 0 < w < 1 /\
    p_x f = Some ((1 - w) * xi + w * xt) /\ p_y f = Some ((1 - w) * yi + w * yt) /\
    (a < b <-> w < 1 / 2) /\ (b < a <-> 1 / 2 < w) /\
    p_dev f = Some (Rmin a b) /\ p_ts f = Z.max (p_ts i) (p_ts t) /\ p_prov f = FUSED /\ p_level f = p_level i.

(** * Expiry (C32) *)
Section Expiry.
Context {F : Type} {NF : Num F}.
Definition too_old (c : postconf) (f : position F) (ts : Z) : Prop := (pc_dead c <= ts - p_ts f)%Z.
Definition off_map (s : settings F) (l : level F) (f : position F) : Prop :=
  s_gpsoutside s = false /\
  ~ ((px (bmin (l_box l)) <=! p_x f) = true /\ (p_x f <=! px (bmax (l_box l))) = true /\
     (py (bmin (l_box l)) <=! p_y f) = true /\ (p_y f <=! py (bmax (l_box l))) = true).
(** time of the last step the post-processor knows, after this call *)
Definition last_step (o : post F) (lm : Z) : Z := if (0 <? lm)%Z then lm else po_step o.
Definition standing (s : settings F) (c : postconf) (step ts : Z) : Prop :=
  s_stops s = true /\ (0 < step)%Z /\ (pc_stopdet c <= ts - step)%Z.
Definition dropped (s : settings F) (c : postconf) (l : level F) (f : position F) (ts : Z) : Prop :=
  p_empty f = true \/ off_map s l f \/ too_old c f ts.
(** the smoother's stored position is non-empty once something was output *)
Definition sm_ready (s : settings F) (o : post F) : Prop :=
  s_usesmooth s = false \/ p_level (po_last o) = ""%string \/
  match po_sm o with SAB a => p_empty (ab_pos a) = false | SLsq _ => True end.
(** the two smoothing stages applied to the fused position *)
Definition smoothing (s : settings F) (o : post F) (l : level F) (f : position F) (ts : Z) :
    res (smoother F * tsm F * position F) :=
  '(sm, r) <- (if s_usesmooth s then
                 sm_smooth s (l_allowed l)
                   (if String.eqb (p_level (po_last o)) (p_level f) then po_sm o else sm_reset (po_sm o) f) f
               else Ok (po_sm o, f)) ;;
  Ok (if s_timesmooth s then (sm, fst (time_smooth (po_time o) r ts), snd (time_smooth (po_time o) r ts))
      else (sm, po_time o, r)).
(** a stand-still position is replaced by [r] *)
Definition adopted (s : settings F) (c : postconf) (o : post F) (r : position F) (ts : Z) : Prop :=
  (pc_stopupd c < ts - po_extr o)%Z /\
  (get_dist (p_x (po_last o)) (p_y (po_last o)) (p_x r) (p_y r) <! s_stopsdist s) = true.
Definition same_memory (o o' : post F) : Prop :=
  po_sm o' = po_sm o /\ po_time o' = po_time o /\ po_last o' = po_last o /\ po_extr o' = po_extr o /\
  po_in o' = po_in o /\ po_out o' = po_out o /\ po_idev o' = po_idev o /\ po_odev o' = po_odev o.
End Expiry.

(** * Inside the map (C33) *)
Definition real_box (b : box RX) (x0 y0 x1 y1 : R) : Prop :=
  px (bmin b) = Some x0 /\ py (bmin b) = Some y0 /\ px (bmax b) = Some x1 /\ py (bmax b) = Some y1.
Definition centimetres (x : R) : Prop := exists z : Z, x = IZR z / 100.
(** a geographic box with latitudes in x *)
Definition geo_box (b : box RX) (la1 lo1 la2 lo2 : R) : Prop := real_box b la1 lo1 la2 lo2 /\
  -90 <= la1 <= 90 /\ -90 <= la2 <= 90 /\ Rabs (lo1 - lo2) <= 180.

Definition xy_real (p : position RX) : Prop := exists x y, p_x p = Some x /\ p_y p = Some y.
(** all positions the post-processor stores have real coordinates *)
Definition mem_real (o : post RX) : Prop :=
  xy_real (po_last o) /\ xy_real (tm_prev (po_time o)) /\ xy_real (tm_next (po_time o)) /\
  match po_sm o with SAB a => xy_real (ab_pos a) | SLsq _ => True end.

(** * Histories of the post-processor (C34, C35) *)
Section Runs.
Context {F : Type} {NF : Num F}.
(** calls of getProcessedPosition: fused position, time, last motion time, level *)
Record pcall := mkPcall { pl_pos : position F; pl_ts : Z; pl_motion : Z; pl_level : level F }.
Fixpoint post_run (s : settings F) (c : postconf) (o : post F) (cs : list pcall) : res (post F * list (position F)) :=
  match cs with
  | [] => Ok (o, [])
  | x :: t =>
      '(o, p) <- processed s c o (pl_pos x) (pl_ts x) (pl_motion x) (pl_level x) ;;
      '(o, ps) <- post_run s c o t ;;
      Ok (o, p :: ps)
  end.
(** a call during a stand-still since step time [step] *)
Definition still_call (s : settings F) (c : postconf) (step : Z) (x : pcall) : Prop :=
  ((pl_motion x <= 0)%Z \/ pl_motion x = step) /\ standing s c step (pl_ts x).
(** coordinates, level and emptiness of two positions agree *)
Definition stays_at (p q : position F) : Prop :=
  p_x p = p_x q /\ p_y p = p_y q /\ p_level p = p_level q /\ p_empty p = p_empty q.
End Runs.
Arguments pcall F : clear implicits.
Definition box_has (b : box RX) (x y : R) : Prop :=
  exists x0 y0 x1 y1, real_box b x0 y0 x1 y1 /\ x0 <= x <= x1 /\ y0 <= y <= y1.
Definition far_from (p : position RX) (x y d : R) : Prop :=
  exists u w, p_x p = Some u /\ p_y p = Some w /\ d <= rdist x y u w.
