(** The integer arithmetic of the client.  The other model files compute with
    unbounded integers; this file lists, for every call, the value of each
    integer operation the C++ evaluates on time stamps, step durations and step
    counts, following the control flow of the model (short-circuit operators
    included), so that the absence of overflow can be stated. *)
From Verif Require Export Client.
Set Implicit Arguments.
Local Open Scope Z_scope.

(** [I64 v]: an addition, subtraction or product of type long long with
    mathematical value [v] (overflow is undefined behaviour);
    [I32 v]: a value [v] converted to int (out of range the result differs) *)
Inductive iop := I64 : Z -> iop | I32 : Z -> iop.

Section Overflow.
Context {F : Type} {NF : Num F} {SO : Sorter}.

(** a loop testing [c (d x)] on successive elements until it fails *)
Fixpoint scan_ints {A : Type} (d : A -> Z) (c : Z -> bool) (l : list A) : list iop :=
  match l with
  | [] => []
  | x :: t => I64 (d x) :: (if c (d x) then scan_ints d c t else [])
  end.

(** pedometer.cpp:41-70 and 77-109 *)
Definition ped_update_ints (p : pedometer F) (m : stamped (sensor F)) : list iop :=
  match s_type (st_data m) with
  | ACCELEROMETER =>
      let acc := pd_acc p ++ [m] in
      let d x := st_ts m - st_ts x in
      scan_ints d (Z.leb 2500) acc ++ scan_ints d (Z.leb 200) acc ++ scan_ints d (Z.ltb (2 * 2500)) acc
  | _ => []
  end.

(** pedometer.cpp:119-122: std::accumulate with an initial value of type int,
    so every partial sum is computed in long long and stored in an int *)
Fixpoint sum_ints (acc : Z) (l : list Z) : list iop :=
  match l with
  | [] => []
  | x :: t => I64 (acc + x) :: I32 (acc + x) :: sum_ints (acc + x) t
  end.

(** pedometer.cpp:129-155, one iteration, and 167-173 for the step length *)
Definition ped_body_ints (mags : list (magnitude F)) (tb : F) (st : @ped_loop_state F) (i : nat) : list iop :=
  let '(possible, steptime, _, _) := st in
  match nth_error mags i, nth_error mags (i - 1) with
  | Some cur, Some prev =>
      if (mg_val prev <! min_threshold) && (min_threshold <! mg_val cur) then
        I64 (mg_ts cur - possible) ::
        (if (300 <? mg_ts cur - possible) && (f0 <! tb) then
           I64 0 :: scan_ints (fun m => mg_ts cur - mg_ts m) (fun z => Z.leb z 700) (rev (firstn i mags))
           ++ [I64 (mg_ts cur - steptime)]
         else [])
      else []
  | _, _ => []
  end.
Fixpoint ped_loop_ints (mags : list (magnitude F)) (tb : F) (st : res (@ped_loop_state F)) (is : list nat) : list iop :=
  match is, st with
  | i :: t, Ok s => ped_body_ints mags tb s i ++ ped_loop_ints mags tb (ped_body mags tb st i) t
  | _, _ => []
  end.

(** pedometer.cpp:111-165 *)
Definition ped_steps_ints (p : pedometer F) : list iop :=
  let mags := pd_mags p in
  let n := List.length mags in
  if Nat.leb n 3 then []
  else
    (if 5 <=? Z.max (Z.of_nat (List.length (pd_times p))) 1 then sum_ints 0 (pd_times p) else []) ++
    (let tb := time_between (pd_times p) in
     let is := seq (pd_size p) (n - pd_size p) in
     let st := Ok (pd_possible p, pd_steptime p, pd_times p, []) in
     ped_loop_ints mags tb st is ++
     match fold_left (ped_body mags tb) is st with
     | Ok _ =>
         let last := match back mags with Some m => mg_ts m | None => 0 end in
         scan_ints (fun m => last - mg_ts m) (Z.ltb (2 * 700)) mags
     | _ => []
     end).

(** complementary_filter.cpp:34 (both low-pass filters) and 125 *)
Definition cf_update_ints (c : cfilter F) (m : stamped (sensor F)) : list iop :=
  match s_type (st_data m) with
  | ACCELEROMETER => [I64 (st_ts m - st_ts (cf_acc c))]
  | MAGNETOMETER => [I64 (st_ts m - st_ts (cf_magn c))]
  | GYROSCOPE => [I64 (st_ts m - (if cf_gyro c =? -1 then st_ts m else cf_gyro c))]
  | _ => []
  end.

(** sensor_fusion.cpp:17-53: line 48 adds the number of steps to an int *)
Definition sf_ints (fuel : nat) (s : settings F) (sf : sfusion F) (m : stamped (sensor F)) : list iop :=
  ped_update_ints (sf_ped sf) m ++
  match ped_update (sf_ped sf) m with
  | Ok ped =>
      ped_steps_ints ped ++
      match ped_steps ped with
      | Ok (_, steps) =>
          cf_update_ints (sf_cf sf) m ++
          match cf_update fuel (cf_conf s) (sf_cf sf) m with
          | Ok cf =>
              (if s_calcaz s then [] else [I64 (cf_cur cf - cf_devts cf)]) ++
              match steps with
              | [] => []
              | _ => [I32 (sf_steps sf + Z.of_nat (List.length steps))]
              end
          | _ => []
          end
      | _ => []
      end
  | _ => []
  end.

(** measurement_preprocessor.cpp:259, 309-311, 318 *)
Definition extract_ints (c : bufcfg) (b : buffer F) (lastStep : Z) : list iop :=
  let step := if 0 <? lastStep then lastStep else b_step b in
  I64 (b_cur b - b_last b) ::
  (if b_cur b - b_last b <? bc_shift c then []
   else
     (if bc_usestops c && (0 <? step) then [I64 (b_cur b - step)] else []) ++
     (if (bc_usestops c && (0 <? step)) && (bc_stop c <? b_cur b - step) then []
      else if bc_keep c =? 0 then [] else [I64 (b_cur b - bc_keep c)])).

(** position_estimator_outdoor.cpp:106 *)
Definition outdoor_ints (s : settings F) (o : outdoor F) (ts : Z) (m : stamped (sensor F)) : list iop :=
  match gps_of s m with
  | None => [I64 (ts - p_ts (ou_last o))]
  | Some _ => []
  end.

(** navigation_client_impl.cpp:67 and 73 *)
Definition drop_ints (s : settings F) (cur sig mot : Z) : list iop :=
  I64 (cur - sig) :: I64 (cur - sig) ::
  (if 1000 * s_noaction s <=? cur - sig then [I64 (cur - mot)] else []).

(** position_postprocessor.cpp:58 and 65 *)
Definition prior_ints (prev p : position F) : list iop :=
  if p_empty p then [] else if p_empty prev then [] else [I64 (p_ts p - p_ts prev)].
(** position_postprocessor.cpp:92-93 *)
Definition delay_ints (ts pts : Z) : list iop := if pts <=? ts then [I64 (ts - pts)] else [].
(** position_postprocessor.cpp:71-119 *)
Definition fuse_ints (s : settings F) (o : post F) (ts : Z) (pin pout : position F) (st : nstatus) : list iop :=
  prior_ints (po_in o) pin ++ prior_ints (po_out o) pout ++
  (let o := fill_states s o pin pout in
   if s_instgps s && negb (p_empty pout) then []
   else if s_prefindoor s && negb (p_empty pin) && status_eqb st OK then []
   else if negb (s_gps s) || p_empty (po_out o) then []
   else if p_empty (po_in o) then []
   else delay_ints ts (p_ts (po_in o)) ++ delay_ints ts (p_ts (po_out o))).

(** position_smoother_ab.cpp:30, position_smoother_lstsq.cpp:27 *)
Definition smooth_ints (m : smoother F) (p : position F) : list iop :=
  match m with
  | SAB a => if p_ts (ab_pos a) <? p_ts p then [I64 (p_ts p - p_ts (ab_pos a))] else []
  | SLsq q => if lq_called q then [I64 (p_ts p - lq_start q)] else []
  end.
(** navigation_time_smoother.cpp:50-51 *)
Definition time_smooth_ints (m : tsm F) (p : position F) (ts : Z) : list iop :=
  if ts <? p_ts p then []
  else if negb (String.eqb (p_level (tm_prev m)) (p_level p))
          || negb (String.eqb (p_level (tm_next m)) (p_level p)) then []
  else if p_empty (tm_prev m) || p_empty (tm_next m) || p_empty p then []
  else
    let m := if p_ts (tm_next m) <? p_ts p then mkTsm (tm_next m) p else m in
    if p_ts (tm_next m) =? p_ts (tm_prev m) then []
    else [I64 (ts - p_ts (tm_next m)); I64 (p_ts (tm_next m) - p_ts (tm_prev m))].
(** position_postprocessor.cpp:189 and 196 *)
Definition hold_ints (s : settings F) (c : postconf) (o : post F) (step ts : Z) : list iop :=
  (if 0 <? step then [I64 (ts - step)] else []) ++
  (if s_stops s && ((0 <? step) && (pc_stopdet c <=? ts - step)) then [I64 (ts - po_extr o)] else []).
(** position_postprocessor.cpp:159-241 *)
Definition processed_ints (s : settings F) (c : postconf) (o : post F) (f : position F) (ts : Z)
    (lastMotion : Z) (l : level F) : list iop :=
  let step := if 0 <? lastMotion then lastMotion else po_step o in
  if p_empty f then []
  else if negb (inside_map s l f) then []
  else I64 (ts - p_ts f) ::
    (if pc_dead c <=? ts - p_ts f then []
     else
       let sm := if negb (String.eqb (p_level (po_last o)) (p_level f))
                 then sm_reset (po_sm o) f else po_sm o in
       (if s_usesmooth s then smooth_ints sm f else []) ++
       match (if s_usesmooth s then sm_smooth s (l_allowed l) sm f else Ok (po_sm o, f)) with
       | Ok (_, r) =>
           (if s_timesmooth s then time_smooth_ints (po_time o) r ts else []) ++ hold_ints s c o step ts
       | _ => []
       end).

(** navigation_client_impl.cpp:79-118 *)
Definition locate_ints (k : config F) (c : client F) (ts : Z) (lid : string) (ms : list (radio F))
    (outp : position F) (m : motion F) : list iop :=
  let s := cf_set k in
  if has_level (cf_col k) lid then
    match get_level (cf_col k) lid with
    | Ok l =>
        match indoor k (c_knn c) l ts ms with
        | Ok (_, (st, inp)) =>
            fuse_ints s (c_post c) ts inp outp st ++
            (let '(po, f) := fuse_positions s (c_post c) ts inp outp st in
             match heading_step (c_prevhead c) (c_prevgyro c) f m with
             | Ok _ => processed_ints s (cf_post k) po f ts (mi_lastTs m) l
             | _ => []
             end)
        | _ => []
        end
    | _ => []
    end
  else [].

(** navigation_client_impl.cpp:53-171 one accepted measurement; the step stops
    where the model step fails *)
Definition step_ints (e : env F) (k : config F) (c : client F) (m : measurement F) : list iop :=
  let s := cf_set k in
  let col := cf_col k in
  match update_measurements s col (c_pre c) m with
  | Ok pre =>
      let cur := pp_cur pre in
      let sig := pp_signal pre in
      let sen := pp_sensor pre in
      let nm := pp_nmea pre in
      sf_ints (e_fuel e) s (c_sf c) sen ++
      match sf_step (e_fuel e) s (c_sf c) sen cur with
      | Ok (_, mi) =>
          extract_ints (cf_buf k) (pp_buf pre) (mi_lastTs mi) ++
          match extract_radio s (cf_buf k) col pre (mi_lastTs mi) with
          | Ok (_, ms) =>
              match detect k ms with
              | Ok det =>
                  outdoor_ints s (c_outd c) cur sen ++
                  match outdoor_position s col (c_outd c) cur sen nm (c_flag c) with
                  | Ok (_, outp) =>
                      drop_ints s cur sig (mi_lastTs mi) ++
                      locate_ints k c cur
                        (drop_level s cur sig (mi_lastTs mi) (snd (level_step (s_baro s) (c_lev c) det sen)))
                        ms outp mi
                  | _ => []
                  end
              | _ => []
              end
          | _ => []
          end
      | _ => []
      end
  | _ => []
  end.

(** navigation_client_impl.cpp:41-172 *)
Fixpoint loop_ints (e : env F) (k : config F) (c : client F) (prev : Z) (ms : list (measurement F)) : list iop :=
  match ms with
  | [] => []
  | m :: t =>
      if st_ts m <? prev then loop_ints e k c prev t
      else
        step_ints e k c m ++
        match nav_step e k c m with
        | Ok (c, _) => loop_ints e k c (st_ts m) t
        | _ => []
        end
  end.
Definition navigate_ints (e : env F) (k : config F) (c : client F) (b : list (measurement F)) : list iop :=
  match b with
  | [] => []
  | m :: _ => loop_ints e k (clear_states c) (st_ts m) b
  end.
(** the operations of a sequence of navigate calls *)
Fixpoint history_ints (e : env F) (k : config F) (c : client F) (bs : list (list (measurement F))) : list iop :=
  match bs with
  | [] => []
  | b :: t =>
      navigate_ints e k c b ++
      match navigate e k c b with
      | Ok (c, _) => history_ints e k c t
      | _ => []
      end
  end.

(** the constructor: navigation_client_impl.cpp:18-19 and
    measurement_preprocessor.cpp:60-66 *)
Definition config_ints (s : settings F) : list iop :=
  [I64 (1000 * s_nosignal s); I64 (1000 * s_noaction s)] ++
  match to_ms (s_avg s), to_ms (s_shift s) with
  | Ok avg, Ok sh => [I64 (avg - (if (sh =? 0) || (avg <? sh) then avg else sh))]
  | _, _ => []
  end.
End Overflow.
