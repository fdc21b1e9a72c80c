(** Position fusion and post-processing.
    Models src/position_postprocessor/position_postprocessor.{h,cpp}. *)
From Verif Require Export Smooth LevelModel Preproc.
Set Implicit Arguments.

(** position_postprocessor.cpp:20-22 millisecond constants *)
Record postconf := mkPostc { pc_dead : Z; pc_stopupd : Z; pc_stopdet : Z }.

(** position_postprocessor.h:57-69 *)
Record post (F : Type) := mkPost {
  po_idev : F; po_odev : F; po_time : tsm F; po_sm : smoother F;
  po_in : position F; po_out : position F; po_last : position F;
  po_extr : Z; po_step : Z }.

Section Post.
Context {F : Type} {NF : Num F}.

Definition post_config (s : settings F) : res postconf :=
  d <- to_ms (s_deadreck s) ;;
  u <- to_ms (s_stopupdate s) ;;
  t <- to_ms (s_stopdetect s) ;;
  Ok (mkPostc d u t).

(** position_postprocessor.cpp:10-44 *)
Definition post0 (s : settings F) : post F :=
  mkPost (s_priordev s) (s_priordev s) tsm0
    (if s_abfilter s then SAB ab0 else SLsq (lsq0 s)) pos0 pos0 pos0 0 (-1).

(** position_postprocessor.cpp:58 and 65: prior deviation *)
Definition prior_dev (s : settings F) (prev : position F) (dev : F) (ts : Z) : F :=
  if p_empty prev then s_priordev s
  else fmin (s_priordev s) (dev +! s_speed s *! fofZ (ts - p_ts prev) /! fofZ 1000).

(** position_postprocessor.cpp:52-69 fillIndoorOutdoorPositionStates *)
Definition fill_states (s : settings F) (o : post F) (pin pout : position F) : post F :=
  let '(idev, i) :=
    if p_empty pin then (po_idev o, po_in o)
    else ((prior_dev s (po_in o) (po_idev o) (p_ts pin) +! p_dev pin) /! fofZ 2, pin) in
  let '(odev, t) :=
    if p_empty pout then (po_odev o, po_out o)
    else ((prior_dev s (po_out o) (po_odev o) (p_ts pout) +! p_dev pout) /! fofZ 2, pout) in
  mkPost idev odev (po_time o) (po_sm o) i t (po_last o) (po_extr o) (po_step o).

(** position_postprocessor.cpp:92-93 delays in seconds *)
Definition delay (ts pts : Z) : F := if (pts <=? ts)%Z then fofZ (ts - pts) /! fofZ 1000 else f0.

(** position_postprocessor.cpp:71-119 fusePositions, after the state update *)
Definition fused (s : settings F) (o : post F) (ts : Z) (pin pout : position F) (st : nstatus) : position F :=
  if s_instgps s && negb (p_empty pout) then pout
  else if s_prefindoor s && negb (p_empty pin) && status_eqb st OK then pin
  else if negb (s_gps s) || p_empty (po_out o) then po_in o
  else if p_empty (po_in o) then po_out o
  else
    let i := po_in o in
    let t := po_out o in
    let idel := delay ts (p_ts i) in
    let odel := delay ts (p_ts t) in
    if s_posold s <! idel then t
    else if s_posold s <! odel then i
    else
      let idev := s_speed s *! idel +! po_idev o in
      let odev := s_speed s *! odel +! po_odev o in
      let dist := get_dist (p_x i) (p_y i) (p_x t) (p_y t) in
      let acc := p_dev i +! p_dev t +! s_fuseborder s in
      if s_fusegps s && (dist <! acc) then
        mkPos ((p_x i *! odev +! p_x t *! idev) /! (odev +! idev))
              ((p_y i *! odev +! p_y t *! idev) /! (odev +! idev))
              (p_level i) (fmin idev odev) (Z.max (p_ts i) (p_ts t)) (p_empty i) FUSED (p_head i)
      else if idev <! odev then i else t.
Definition fuse_positions (s : settings F) (o : post F) (ts : Z) (pin pout : position F) (st : nstatus) :
    post F * position F :=
  let o := fill_states s o pin pout in (o, fused s o ts pin pout st).

(** position_postprocessor.cpp:121-150 getProjection: loop body *)
Definition proj_edge (u v p : XY F) : XY F :=
  let '(k, q) := get_projection (px u) (py u) (px v) (py v) (px p) (py p) in
  if k <! f0 then u else if f1 <! k then v else q.
Definition graph_projection (g : graph (XY F)) (p : XY F) : res (XY F) :=
  r <- fold_left (fun (acc : res (XY F * F)) e =>
         '(p0, d0) <- acc ;;
         u <- get_vertex g (fst e) ;;
         v <- get_vertex g (snd e) ;;
         let p1 := proj_edge (snd u) (snd v) p in
         let d := get_dist (px p) (py p) (px p1) (py p1) in
         Ok (if fisnan d0 || (d <! d0) then (p1, d) else (p0, d0)))
       (g_edges g) (Ok (p, fnan)) ;;
  Ok (fst r).

(** position_postprocessor.cpp:216-228 *)
Definition project (s : settings F) (l : level F) (p : position F) : res (position F) :=
  if s_graphproj s then
    q <- graph_projection (l_graph l) (mkXY (p_x p) (p_y p)) ;;
    let d := get_dist (p_x p) (p_y p) (px q) (py q) in
    Ok (if negb (fisnan d) && (d <! s_graphdist s) then pos_set_xy p (px q) (py q) else p)
  else Ok p.

(** position_postprocessor.cpp:230-234 *)
Definition clamp (lo hi x : F) : F := fmin (fmax x lo) hi.
(** position_postprocessor.cpp:236-238 *)
Definition round2 (x : F) : F := ffloor (x *! fofZ 100) /! fofZ 100.
Definition clamp_round (b : box F) (p : position F) : position F :=
  pos_set_xy p (round2 (clamp (px (bmin b)) (px (bmax b)) (p_x p)))
               (round2 (clamp (py (bmin b)) (py (bmax b)) (p_y p))).

(** position_postprocessor.cpp:152-157 isInsideMap *)
Definition inside_map (s : settings F) (l : level F) (p : position F) : bool :=
  s_gpsoutside s || covered_by_box (p_x p) (p_y p) (l_box l).

(** position_postprocessor.cpp:190-213 choice of the new last output position *)
Definition hold_or_move (s : settings F) (c : postconf) (o : post F) (step ts : Z) (r : position F) :
    position F * Z :=
  let toolong := (0 <? step)%Z && (pc_stopdet c <=? ts - step)%Z in
  let dist := get_dist (p_x (po_last o)) (p_y (po_last o)) (p_x r) (p_y r) in
  let near := dist <! s_stopsdist s in
  if s_stops s && toolong then
    if (pc_stopupd c <? ts - po_extr o)%Z && near then (pos_set_ts r ts, ts)
    else (pos_set_ts (po_last o) ts, po_extr o)
  else (pos_set_dev (pos_set_ts r ts) (p_dev (po_in o)), po_extr o).

(** position_postprocessor.cpp:159-241 getProcessedPosition *)
Definition processed (s : settings F) (c : postconf) (o : post F) (f : position F) (ts : Z)
    (lastMotion : Z) (l : level F) : res (post F * position F) :=
  let step := if (0 <? lastMotion)%Z then lastMotion else po_step o in
  let o := mkPost (po_idev o) (po_odev o) (po_time o) (po_sm o) (po_in o) (po_out o) (po_last o)
             (po_extr o) step in
  if p_empty f then Ok (o, pos0)
  else if negb (inside_map s l f) then Ok (o, pos0)
  else if (pc_dead c <=? ts - p_ts f)%Z then Ok (o, pos0)
  else
    '(sm, r) <- (if s_usesmooth s then
                   let sm := if negb (String.eqb (p_level (po_last o)) (p_level f))
                             then sm_reset (po_sm o) f else po_sm o in
                   sm_smooth s (l_allowed l) sm f
                 else Ok (po_sm o, f)) ;;
    let '(tm, r) := if s_timesmooth s then time_smooth (po_time o) r ts else (po_time o, r) in
    let '(last, extr) := hold_or_move s c o step ts r in
    last <- project s l last ;;
    let last := clamp_round (l_box l) last in
    Ok (mkPost (po_idev o) (po_odev o) tm sm (po_in o) (po_out o) last extr step, last).
End Post.
