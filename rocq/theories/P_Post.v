(** C31-C35: fusion and post-processing. *)
From Coq Require Import Reals Lra.
From Verif Require Import Lib NumOrd NumReal NumFloat LibR SortInst Client Spec_Preproc Spec_Client Spec_Post
  Pf_Client Pf_ClientInv Pf_Post Ex.
Local Open Scope string_scope.
Local Open Scope list_scope.
#[local] Existing Instance nf.
#[local] Existing Instance isorter.

(** data of the examples *)
Definition ex_p {F} {NF : Num F} (x y dev : F) (ts : Z) : position F := mkPos x y "L1" dev ts false INDOOR f0.
Definition ex_room {F} {NF : Num F} : level F :=
  mkLevel "L1" (mkGeo f0 f0) [] (mkRM [] []) (mkBox (mkXY f0 f0) (mkXY (fofZ 100) (fofZ 100))) (fun _ _ => true) (mkGraph [] []).
Definition ex_set {F} {NF : Num F} (stops smooth fuse : bool) : settings F :=
  ex_post (mkOpts stops smooth true false false fuse false (fofZ 10)) (ex_zones false).
Definition ex_pc : postconf := mkPostc 5000 4000 3000.
Definition sf (n d : Z) : SF := lit n d.

(** ** C31 *)
Theorem C31_fusion (s : settings RX) v pd old bor (o o' : post RX) ts pin pout st (f : position RX) :
  real_settings s v pd old bor -> good_post o -> good_pos pin -> good_pos pout ->
  (p_empty pin = true \/ p_empty (po_in o) = true \/ (p_ts (po_in o) <= p_ts pin)%Z) ->
  (p_empty pout = true \/ p_empty (po_out o) = true \/ (p_ts (po_out o) <= p_ts pout)%Z) ->
  fuse_positions s o ts pin pout st = (o', f) ->
  good_post o' /\
  exists i t, po_idev o' = Some i /\ po_odev o' = Some t /\
  let di := rdelay ts (p_ts (po_in o')) in let dt := rdelay ts (p_ts (po_out o')) in
  let a := (v * di + i)%R in let b := (v * dt + t)%R in
  (s_instgps s = true /\ p_empty pout = false /\ f = pout) \/
  (s_prefindoor s = true /\ p_empty pin = false /\ st = OK /\ f = pin) \/
  ((s_gps s = false \/ p_empty (po_out o') = true) /\ f = po_in o') \/
  (p_empty (po_in o') = true /\ f = po_out o') \/
  ((old < di)%R /\ f = po_out o') \/
  ((old < dt)%R /\ f = po_in o') \/
  ((di <= old)%R /\ (dt <= old)%R /\ s_gps s = true /\ p_empty (po_in o') = false /\ p_empty (po_out o') = false /\
   exists xi yi ei xt yt et, at_xy (po_in o') xi yi ei /\ at_xy (po_out o') xt yt et /\
   if s_fusegps s && Rltb (rdist xi yi xt yt) (ei + et + bor) then fuses (po_in o') (po_out o') a b f /\ p_empty f = false
   else f = if Rltb a b then po_in o' else po_out o').
Proof. exact (@fusion s v pd old bor o o' ts pin pout st f). Qed.
Print Assumptions C31_fusion.

Theorem C31_initial (s : settings RX) v pd old bor : real_settings s v pd old bor -> good_post (post0 s).
Proof. exact (@good0 s v pd old bor). Qed.
Print Assumptions C31_initial.

(** an older indoor position makes the deviation negative and the fused point leaves the segment *)
Theorem C31_time_back_refuted : exists (s : settings SF) (o : post SF) pin pout f,
  s_fusegps s = true /\ snd (fuse_positions s o 20000 pin pout OK) = f /\
  (p_ts pin < p_ts (po_in o))%Z /\ p_prov f = FUSED /\
  (f0 <! p_dev pin) = true /\ (f0 <! p_dev pout) = true /\ (f0 <! po_idev o) = true /\ (f0 <! po_odev o) = true /\
  p_x pin = f0 /\ p_x pout = fofZ 8 /\ p_x f = fofZ (-80).
Proof.
  exists (ex_set false false true), (mkPost (fofZ 5) (fofZ 5) tsm0 (SAB ab0) (ex_p f0 f0 (fofZ 5) 100000) pos0 pos0 0 (-1)),
    (ex_p f0 f0 (fofZ 5) 0), (ex_p (fofZ 8) f0 (fofZ 5) 20000).
  eexists. split; [reflexivity|]. split; [reflexivity|]. repeat split; vm_compute; reflexivity.
Qed.
Print Assumptions C31_time_back_refuted.

(** the hypotheses hold of a fresh post-processor, and a fused position *)
Example C31_example :
  real_settings (ex_set false false true) 1 50 20 10 /\ good_pos (ex_p (Some 0 : RX) (Some 0) (Some 1) 1000)%R /\
  let f := snd (fuse_positions (ex_set false false true) (post0 (ex_set false false true)) 1000
     (ex_p (fofZ 0 : SF) f0 (fofZ 2) 1000) (ex_p (fofZ 8) f0 (fofZ 10) 1000) OK) in
  p_prov f = FUSED /\ (fofZ 3 <! p_x f) = true /\ (p_x f <! fofZ 4) = true /\ p_dev f = fofZ 26.
Proof.
  split; [|split].
  - constructor; try reflexivity; lra.
  - right. exists 0%R, 0%R, 1%R. split; [repeat split|lra].
  - vm_compute. auto.
Qed.

(** ** C32 *)
Theorem C32_expiry {F : Type} {NF : Num F} (s : settings F) c (o o' : post F) f ts lm (l : level F) p :
  (p_empty f = false -> p_level f <> "") -> sm_ready s o ->
  processed s c o f ts lm l = Ok (o', p) ->
  sm_ready s o' /\
  (dropped s c l f ts -> p = pos0 /\ same_memory o o') /\
  (~ dropped s c l f ts -> exists sm tm r, smoothing s o l f ts = Ok (sm, tm, r) /\ p_empty r = false /\
     (p_empty p = true <-> standing s c (last_step o lm) ts /\ p_empty (po_last o) = true /\ ~ adopted s c o r ts)).
Proof. exact (@expiry F NF s c o f ts lm l o' p). Qed.
Print Assumptions C32_expiry.

(** the smoother of every reachable client is ready *)
Theorem C32_reachable {F : Type} {NF : Num F} {NO : NumOrd F} {SO : Sorter} (e : env F) (s : settings F)
    (gs : list (geolevel F)) (k : config F) (c : client F) :
  built s gs k -> NoDup (map (@gl_id F) gs) -> ~ In "" (map (@gl_id F) gs) -> reachable e k c -> sm_ready s (c_post c).
Proof. exact (@ready_reachable F NF SO e s gs k c f0_eqb). Qed.
Print Assumptions C32_reachable.

(** a smoother that was never reset returns its empty stored position *)
Theorem C32_unready_refuted : exists (s : settings SF) c (o o' : post SF) f ts lm l p,
  processed s c o f ts lm l = Ok (o', p) /\ ~ dropped s c l f ts /\ s_stops s = false /\ p_empty p = true.
Proof.
  exists (ex_set false true false), ex_pc,
    (mkPost f0 f0 tsm0 (SAB (mkAB true f0 f0 (pos_set_ts pos0 9000))) pos0 pos0 (ex_p f0 f0 f0 0) 0 (-1)).
  eexists. exists (ex_p (fofZ 1) (fofZ 1) f1 8000), 9000%Z, 0%Z, ex_room. eexists.
  split; [vm_compute; reflexivity|]. split; [|vm_compute; auto].
  intros [H|[[_ H]|H]]; [discriminate| |unfold too_old in H; cbn in H; lia]. apply H. vm_compute. auto.
Qed.
Print Assumptions C32_unready_refuted.

Example C32_example :
  sm_ready (ex_set true true false) (post0 (ex_set true true false : settings SF)) /\
  (forall ts, dropped (ex_set true true false) ex_pc ex_room (ex_p (fofZ 3 : SF) (fofZ 4) f1 1000) ts <-> (6000 <= ts)%Z) /\
  ('(_, p) <- processed (ex_set true true false) ex_pc (post0 (ex_set true true false)) (ex_p (fofZ 3 : SF) (fofZ 4) f1 1000) 5999 0 ex_room ;;
   Ok (p_empty p, p_x p)) = Ok (false, fofZ 3) /\
  ('(_, p) <- processed (ex_set true true false) ex_pc (post0 (ex_set true true false)) (ex_p (fofZ 30 : SF) (fofZ 4) f1 1000) 5999 100 ex_room ;;
   Ok (p_empty p)) = Ok true.
Proof.
  split; [right; left; reflexivity|]. split; [|split; vm_compute; reflexivity].
  intros ts. unfold dropped, too_old. cbn [pc_dead ex_pc p_ts ex_p]. split; [|intros; right; right; lia].
  intros [H|[[_ H]|H]]; [discriminate| |lia]. exfalso. apply H. vm_compute. auto.
Qed.

(** ** C33 *)
Theorem C33_inside (s : settings RX) c (o o' : post RX) f ts lm l p (x0 y0 x1 y1 : R) :
  real_box (l_box l) x0 y0 x1 y1 -> (x0 <= x1)%R -> (y0 <= y1)%R -> centimetres x0 -> centimetres y0 ->
  mem_real o -> xy_real f -> processed s c o f ts lm l = Ok (o', p) ->
  mem_real o' /\ (dropped s c l f ts /\ p = pos0 \/
    exists x y, p_x p = Some x /\ p_y p = Some y /\ (x0 <= x <= x1)%R /\ (y0 <= y <= y1)%R /\ centimetres x /\ centimetres y).
Proof. exact (@inside s c o f ts lm l o' p x0 y0 x1 y1). Qed.
Print Assumptions C33_inside.

Theorem C33_rounding b (x0 y0 x1 y1 : R) (p : position RX) x y : real_box b x0 y0 x1 y1 -> p_x p = Some x -> p_y p = Some y ->
  (x0 <= x <= x1)%R -> (y0 <= y <= y1)%R -> exists x' y', p_x (clamp_round b p) = Some x' /\ p_y (clamp_round b p) = Some y' /\
    (0 <= x - x' < 1 / 100)%R /\ (0 <= y - y' < 1 / 100)%R.
Proof. exact (@clamp_round_near b x0 y0 x1 y1 p x y). Qed.
Print Assumptions C33_rounding.

Theorem C33_geolevel (g : geolevel RX) l (la1 lo1 la2 lo2 : R) : geo_box (gl_box g) la1 lo1 la2 lo2 -> local_level g = Ok l ->
  exists x1 y1, (0 <= x1)%R /\ (0 <= y1)%R /\ real_box (l_box l) 0 0 x1 y1.
Proof. exact (@geolevel_box g l la1 lo1 la2 lo2). Qed.
Print Assumptions C33_geolevel.

(** a lower corner off the grid: the output lies outside the box *)
Theorem C33_unaligned_refuted : exists (s : settings RX) c (o o' : post RX) f l p x,
  real_box (l_box l) (1 / 200) 0 1 1 /\ mem_real o /\ xy_real f /\ processed s c o f 0 0 l = Ok (o', p) /\
  p_empty p = false /\ p_x p = Some x /\ (x < 1 / 200)%R.
Proof.
  pose (l := mkLevel "L1" (mkGeo f0 f0) [] (mkRM [] []) (mkBox (mkXY (Some (1 / 200)%R) (Some 0%R)) (mkXY (Some 1%R) (Some 1%R)))
    (fun _ _ => true) (mkGraph [] []) : level RX).
  pose (f := ex_p (Some (1 / 200)%R) (Some 0%R) (Some 1%R) 0 : position RX).
  assert (D : ~ dropped (ex_set false false false) ex_pc l f 0).
  { intros [H|[[_ H]|H]]; [discriminate| |unfold too_old in H; cbn in H; lia]. apply H. cbn [l f l_box bmin bmax px py p_x p_y ex_p].
    rewrite !rx_leb, !Rleb_true. lra. }
  assert (E := @processed_kept RX _ (ex_set false false false) ex_pc (post0 (ex_set false false false)) f 0 0 l D).
  destruct (@off_grid (1 / 200) 0) as (y & Ey & Hy); [lra|lra|].
  exists (ex_set false false false), ex_pc, (post0 (ex_set false false false)).
  do 1 eexists. exists f, l. eexists. exists y.
  split; [repeat split|]. split; [apply mem_real0|]. split; [exists (1 / 200)%R, 0%R; split; reflexivity|].
  split; [exact E|]. split; [reflexivity|]. split; [|exact Hy].
  cbn [clamp_round pos_set_xy pos_set_ts pos_set_dev p_x l f l_box bmin bmax px py ex_p].
  rewrite clamp_real, clamp_id by lra. exact Ey.
Qed.
Print Assumptions C33_unaligned_refuted.

(** boxes whose longitudes are more than 180 degrees apart are folded over and no longer cover their level *)
Theorem C33_wide_box_refuted : exists (g : geolevel SF) l, local_level g = Ok l /\
  covered_by_box (px (gps_to_local (mkGeo (fofZ 5) (fofZ 100)) (l_bind l))) (py (gps_to_local (mkGeo (fofZ 5) (fofZ 100)) (l_bind l))) (l_box l) = false /\
  covered_by_box (fofZ 5) (fofZ 100) (correct_box (gl_box g)) = true.
Proof.
  exists (mkGeoLevel "L" [] [] (mkBox (mkXY (fofZ 0) (fofZ (-100))) (mkXY (fofZ 10) (fofZ 150))) (fun _ _ => true) (mkGraph [] []) f0).
  eexists. split; [vm_compute; reflexivity|]. vm_compute. auto.
Qed.
Print Assumptions C33_wide_box_refuted.

Example C33_example : mem_real (post0 (ex_set true true true)) /\ real_box (l_box (ex_room : level RX)) 0 0 100 100 /\ centimetres 0 /\
  geo_box (mkBox (mkXY (Some 55) (Some 37)) (mkXY (Some 56) (Some 38)) : box RX)%R 55 37 56 38 /\
  ('(_, p) <- processed (ex_set false false false) ex_pc (post0 (ex_set true true false)) (ex_p (sf 12345 1000) (sf 200 1) f1 1000) 2000 0
      (mkLevel "L1" (mkGeo f0 f0) [] (mkRM [] []) (mkBox (mkXY f0 f0) (mkXY (fofZ 100) (fofZ 100))) (fun _ _ => true) (mkGraph [] [])) ;;
   Ok (p_empty p)) = Ok true /\
  ('(_, p) <- processed (ex_set false false false) ex_pc (post0 (ex_set true true false)) (ex_p (sf 12345 1000) (sf 99 1) f1 1000) 2000 0 ex_room ;;
   Ok (p_x p, p_y p)) = Ok (sf 1234 100, sf 99 1).
Proof.
  split; [apply mem_real0|]. split; [repeat split|]. split; [exists 0%Z; lra|].
  split; [|split; vm_compute; reflexivity].
  split; [repeat split|]. split; [lra|]. split; [lra|]. unfold Rabs. destruct (Rcase_abs _); lra.
Qed.

(** ** C34 *)
Theorem C34_round_idempotent (x : R) : round2 (round2 (Some x : RX)) = round2 (Some x : RX).
Proof. exact (round2_idem x). Qed.
Print Assumptions C34_round_idempotent.

(** on doubles a held position loses a centimetre with every call *)
Theorem C34_creep_refuted : exists (s : settings SF) c (o : post SF) f l,
  standing s c (po_step o) 100000 /\ s_graphproj s = false /\ s_usesmooth s = false /\ s_timesmooth s = false /\
  exists o' p1 p2 p3, post_run s c o [mkPcall f 100000 0 l; mkPcall f 100001 0 l; mkPcall f 100002 0 l] = Ok (o', [p1; p2; p3]) /\
    (p_x p1 <! p_x (po_last o)) = true /\ (p_x p2 <! p_x p1) = true /\ p_x p3 = p_x p2 /\
    p_empty p1 = false /\ p_empty p2 = false /\ p_empty p3 = false.
Proof.
  exists (ex_set true false false), ex_pc, (mkPost f1 f1 tsm0 (SAB ab0) pos0 pos0 (ex_p (sf 58 100) (sf 1 1) f1 0) 99999 1),
   (ex_p (sf 50 1) (sf 50 1) f1 99999), ex_room.
  split; [vm_compute; repeat split; discriminate|]. do 3 (split; [reflexivity|]).
  do 4 eexists. split; [vm_compute; reflexivity|]. vm_compute. auto 10.
Qed.
Print Assumptions C34_creep_refuted.

Example C34_example : round2 (sf 29 100) = sf 28 100 /\ round2 (sf 25 100) = sf 25 100.
Proof. split; vm_compute; reflexivity. Qed.

(** ** C35 *)
Theorem C35_standing {F : Type} {NF : Num F} (s : settings F) c (o o' : post F) f ts lm (l : level F) p :
  ~ dropped s c l f ts -> standing s c (last_step o lm) ts -> processed s c o f ts lm l = Ok (o', p) ->
  exists sm tm r q, smoothing s o l f ts = Ok (sm, tm, r) /\ p = clamp_round (l_box l) q /\ po_last o' = p /\
    (adopted s c o r ts -> project s l (pos_set_ts r ts) = Ok q /\ po_extr o' = ts) /\
    (~ adopted s c o r ts -> project s l (pos_set_ts (po_last o) ts) = Ok q /\ po_extr o' = po_extr o).
Proof. exact (@stand_rule F NF s c o f ts lm l o' p). Qed.
Print Assumptions C35_standing.

Theorem C35_moving {F : Type} {NF : Num F} (s : settings F) c (o o' : post F) f ts lm (l : level F) p :
  ~ dropped s c l f ts -> ~ standing s c (last_step o lm) ts -> processed s c o f ts lm l = Ok (o', p) ->
  exists sm tm r q, smoothing s o l f ts = Ok (sm, tm, r) /\ p = clamp_round (l_box l) q /\ po_last o' = p /\
    project s l (pos_set_dev (pos_set_ts r ts) (p_dev (po_in o))) = Ok q /\ po_extr o' = po_extr o.
Proof. exact (@moving_rule F NF s c o f ts lm l o' p). Qed.
Print Assumptions C35_moving.

(** fixes at least the threshold away never change the reported position, however many *)
Theorem C35_far_ignored (s : settings RX) c (o o' : post RX) cs x y d ps :
  s_graphproj s = false -> s_usesmooth s = false -> s_timesmooth s = false ->
  s_stopsdist s = Some d -> p_x (po_last o) = Some x -> p_y (po_last o) = Some y -> centimetres x -> centimetres y ->
  Forall (fun k => still_call s c (po_step o) k /\ box_has (l_box (pl_level k)) x y /\ far_from (pl_pos k) x y d) cs ->
  post_run s c o cs = Ok (o', ps) ->
  Forall (fun p => p = pos0 \/ stays_at p (po_last o)) ps /\ stays_at (po_last o') (po_last o).
Proof. exact (@far_ignored s c o cs x y d o' ps). Qed.
Print Assumptions C35_far_ignored.

(** neither does anything before the update interval has passed, whatever the smoothing *)
Theorem C35_early_ignored (s : settings RX) c (o o' : post RX) cs x y ps : s_graphproj s = false ->
  p_x (po_last o) = Some x -> p_y (po_last o) = Some y -> centimetres x -> centimetres y ->
  Forall (fun k => still_call s c (po_step o) k /\ box_has (l_box (pl_level k)) x y /\ (pl_ts k - po_extr o <= pc_stopupd c)%Z) cs ->
  post_run s c o cs = Ok (o', ps) ->
  Forall (fun p => p = pos0 \/ stays_at p (po_last o)) ps /\ stays_at (po_last o') (po_last o).
Proof. exact (@early_ignored s c o cs x y o' ps). Qed.
Print Assumptions C35_early_ignored.

(** so while nothing was output yet, fixes farther than the threshold from (0,0) are never reported *)
Theorem C35_never_reported (s : settings RX) c (o : post RX) cs d :
  s_graphproj s = false -> s_usesmooth s = false -> s_timesmooth s = false ->
  s_stopsdist s = Some d -> po_last o = pos0 ->
  Forall (fun k => still_call s c (po_step o) k /\ box_has (l_box (pl_level k)) 0 0 /\ far_from (pl_pos k) 0 0 d) cs ->
  exists o' ps, post_run s c o cs = Ok (o', ps) /\ Forall (fun p => p_empty p = true) ps.
Proof. exact (@never_reported s c o cs d). Qed.
Print Assumptions C35_never_reported.

(** ten metres is the threshold: 30 m is ignored for ever, 5 m is reported *)
Example C35_example :
  still_call (ex_set true false false) ex_pc 100 (mkPcall (ex_p (Some 30 : RX) (Some 0) (Some 1) 5000)%R 5000 0 ex_room) /\
  box_has (l_box (ex_room : level RX)) 0 0 /\ far_from (ex_p (Some 30 : RX) (Some 0) (Some 1) 5000)%R 0 0 10 /\
  ('(_, ps) <- post_run (ex_set true false false) ex_pc (post0 (ex_set true false false))
     [mkPcall (ex_p (sf 30 1) f0 f1 5000) 5000 100 ex_room; mkPcall (ex_p (sf 30 1) f0 f1 50000) 50000 0 ex_room;
      mkPcall (ex_p (sf 5 1) f0 f1 50001) 50001 0 ex_room] ;; Ok (map (fun p => (p_empty p, p_x p)) ps)) =
  Ok [(true, f0); (true, f0); (false, sf 5 1)].
Proof.
  split; [split; [left; cbn; lia|]; repeat split; cbn; lia|].
  split; [exists 0%R, 0%R, 100%R, 100%R; split; [repeat split|lra]|].
  split; [|vm_compute; reflexivity].
  exists 30%R, 0%R. split; [reflexivity|]. split; [reflexivity|]. unfold rdist.
  replace ((0 - 30) * (0 - 30) + (0 - 0) * (0 - 0))%R with (30 * 30)%R by ring. rewrite sqrt_square; lra.
Qed.
