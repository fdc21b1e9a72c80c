(** Level estimation.  Models src/level_estimator/*. *)
From Verif Require Export Knn.
Set Implicit Arguments.

(** level_history.h:17-28; the map counts detections per level *)
Record lhist := mkHist { lh_cur : string; lh_init : bool; lh_cnt : list (string * Z) }.
Definition lhist0 : lhist := mkHist "" false [].

(** level_history.cpp:12 MAX_LEVEL_ID_OCCUR *)
Definition max_occur : Z := 4.

(** level_history.cpp:21-41 detectLevelUsingHistory *)
Definition hist_step (h : lhist) (d : string) : lhist * string :=
  if String.eqb d "" then (h, lh_cur h)
  else
    let cur := if lh_init h then lh_cur h else d in
    let n := (mget 0 d (lh_cnt h) + 1)%Z in
    if (max_occur <? n)%Z
    then (mkHist d true [(d, max_occur)], d)
    else (mkHist cur true (mset d n (lh_cnt h)), cur).

(** barometer.h:20-37 *)
Record baro (F : Type) := mkBaro {
  ba_new : list F; ba_old : list F; ba_init : bool; ba_level : string }.

(** level_estimator.h:35-36 *)
Record levest (F : Type) := mkLev { le_hist : lhist; le_baro : baro F }.

Section LevelEst.
Context {F : Type} {NF : Num F}.

Definition baro0 : baro F := mkBaro [] [] false "".
Definition levest0 : levest F := mkLev lhist0 baro0.

(** barometer.cpp:25 SIZE_OF_CHUNK *)
Definition chunk : nat := 100.

(** barometer.cpp:27-36 calcMean *)
Definition calc_mean (l : list F) : F :=
  match l with
  | [] => f0
  | _ => fsum (fun x => x) l /! fofnat (List.length l)
  end.

(** barometer.cpp:57-80 updateBuffers *)
Definition baro_update_buffers (b : baro F) (m : stamped (sensor F)) : baro F :=
  match s_type (st_data m) with
  | BAROMETER =>
      let old := if Nat.ltb chunk (List.length (ba_old b)) then tl (ba_old b) else ba_old b in
      let '(new, old) :=
        if Nat.ltb chunk (List.length (ba_new b)) then
          match ba_new b with
          | x :: t => (t, old ++ [x])
          | [] => (ba_new b, old)
          end
        else (ba_new b, old) in
      mkBaro (new ++ [vx (s_val (st_data m))]) old (ba_init b) (ba_level b)
  | _ => b
  end.

(** barometer.cpp:17-23: PASCAL_TO_METERS = -R * T / (G * M) *)
Definition pascal_to_meters : F :=
  (fopp (lit 831 100) *! fofZ 288) /! (lit 98 10 *! lit 289 10000).
(** barometer.cpp:100-103 height difference of two mean pressures *)
Definition delta_height (cur last : F) : F :=
  pascal_to_meters *! flog ((fofZ 100 *! cur) /! (fofZ 100 *! last)).

(** barometer.cpp:83-113 updateLevel *)
Definition baro_update_level (b : baro F) (lid : string) : baro F :=
  let set l := mkBaro (ba_new b) (ba_old b) (ba_init b) l in
  if Nat.ltb chunk (List.length (ba_new b)) && Nat.leb chunk (List.length (ba_old b)) then
    if negb (String.eqb (ba_level b) lid) then
      let cur := calc_mean (ba_new b) in
      let last := calc_mean (ba_old b) in
      if (cur <=! feps) || (last <=! feps) then b
      else if fofZ 2 <! fabs (delta_height cur last) then set lid
      else b
    else b
  else set lid.

(** barometer.cpp:42-55 checkLevelChange *)
Definition baro_step (b : baro F) (lid : string) (m : stamped (sensor F)) : baro F * string :=
  if negb (ba_init b) then (mkBaro (ba_new b) (ba_old b) true (ba_level b), lid)
  else
    let b := baro_update_level (baro_update_buffers b m) lid in
    (b, ba_level b).

(** level_estimator_transmitters.cpp:21-28 getAverageRssi *)
Definition average_rssi (ms : list (radio F)) : F :=
  fsum (@r_rssi F) ms /! fofZ (Z.max (Z.of_nat (List.length ms)) 1).
(** level_estimator_transmitters.cpp:30-41 getAverageA *)
Definition average_A (l : level F) (ms : list (radio F)) : res F :=
  sum <- fold_left (fun (acc : res F) m =>
           s <- acc ;; t <- get_tx l (r_id m) ;; Ok (s +! pl_A (t_pl t))) ms (Ok f0) ;;
  Ok (sum /! fofZ (Z.max (Z.of_nat (List.length ms)) 1)).

(** level_estimator_transmitters.cpp:53-62 cost of one level with a non-empty
    list of its measurements; [n] is the number of all measurements *)
Definition level_cost (usePower : bool) (l : level F) (lms : list (radio F)) (n : nat) : res F :=
  a <- (if usePower then average_A l lms else Ok f0) ;;
  let cost := average_rssi lms +! a in
  let weight := f1 +! (lit 1 10 *! fofnat (List.length lms)) /! fofnat n in
  Ok (cost /! weight).

(** level_estimator_transmitters.cpp:43-73 detectCurrentLevel *)
Definition detect_tx (usePower : bool) (c : collector F) (ms : list (radio F)) : res string :=
  r <- fold_left (fun (acc : res (string * F)) l =>
         '(best, bc) <- acc ;;
         let lms := level_radio l ms in
         match lms with
         | [] => Ok (best, bc)
         | _ =>
             cost <- level_cost usePower l lms (List.length ms) ;;
             Ok (if bc <! cost then (l_id l, cost) else (best, bc))
         end) (col_levels c) (Ok (""%string, fofZ (-1000))) ;;
  Ok (fst r).

(** level_estimator_radiomap.cpp:55-79 contribution of one measurement: weight
    and whether the transmitter occurs in the map *)
Definition meas_weight (m : radio F) (rm : rmap F) : option F :=
  let r := equal_range rm (r_id m) in
  match r with
  | [] => None
  | _ =>
      let w := fsum (fun e =>
        (f1 *! f1) /! (fabs (fabs (r_rssi m) -! fabs (ss_mean (snd e))) +! lit 1 10)) r in
      Some (w /! fofnat (List.length r))
  end.
(** level_estimator_radiomap.cpp:48-83 calcWeight *)
Definition calc_weight (ms : list (radio F)) (rm : rmap F) : F :=
  let '(w, n) := fold_left (fun (acc : F * nat) m =>
      match meas_weight m rm with
      | Some x => (fst acc +! x, S (snd acc))
      | None => acc
      end) ms (f0, 0%nat) in
  w *! fofnat n.
(** level_estimator_radiomap.cpp:86-107 calcWeightBestRp *)
Definition calc_weight_best_rp (ms : list (radio F)) (rm : rmap F) : F :=
  fold_left (fun best e => if best <! snd e then snd e else best) (rp_weights rm ms true) f0.

(** level_estimator_radiomap.cpp:26-45 detectCurrentLevel; [rmaps] was built by
    the constructor, .at throws for a level added afterwards *)
Definition detect_rm (bestRp : bool) (rmaps : list (string * rmap F)) (c : collector F)
    (ms : list (radio F)) : res string :=
  r <- fold_left (fun (acc : res (string * F)) l =>
         '(best, bw) <- acc ;;
         rm <- at_or_throw (alookup (l_id l) rmaps) ;;
         let w := if bestRp then calc_weight_best_rp ms rm else calc_weight ms rm in
         Ok (if bw <! w then (l_id l, w) else (best, bw)))
       (col_levels c) (Ok (""%string, f0)) ;;
  Ok (fst r).

(** level_estimator.cpp:23-33 calculateLevel, after detection *)
Definition level_step (useBaro : bool) (e : levest F) (detected : string) (m : stamped (sensor F)) :
    levest F * string :=
  let '(h, lid) := hist_step (le_hist e) detected in
  if useBaro then
    let '(b, lid) := baro_step (le_baro e) lid m in (mkLev h b, lid)
  else (mkLev h (le_baro e), lid).
End LevelEst.
