(** Stand-alone position estimation.  Models standalone_algorithms/
    position_estimation/src/{measurement_preprocessor,position_smoother,
    nearest_transmitter_estimator}.cpp, their headers, and splitToPackets of
    examples/main.cpp.  Type [radio] of the navigation core stands for
    RadioMeasurement (navigation_structures.h:33-45): the member frequency is
    never read and only the types WIFI and BEACON occur; ts is the stamp. *)
From Verif Require Export Preproc.
From Verif Require Import Smooth.
Set Implicit Arguments.

(** measurement_preprocessor.h:22-26: constants and state of RadioMeasurementBuffer *)
Record sacfg := mkSacfg { sc_keep : Z; sc_shift : Z }.
Record sabuf (F : Type) := mkSabuf { sb_ms : list (stamped (radio F)); sb_last : Z; sb_cur : Z }.
(** measurement_preprocessor.h:46-53; the flags and the buffer constants *)
Record sapcfg := mkSapcfg { sp_buf : sacfg; sp_wifi : bool; sp_ble : bool }.
Record sapre (F : Type) := mkSapre { sr_buf : sabuf F; sr_cur : Z }.
(** navigation_structures.h:24-31 *)
Record sapos (F : Type) := mkSapos { sa_x : F; sa_y : F; sa_prec : F; sa_empty : bool; sa_ts : Z }.
(** position_smoother.h:15-20; mTsMs is never used *)
Record sasm (F : Type) := mkSasm { sm_called : bool; sm_vx : F; sm_vy : F; sm_alpha : F; sm_pos : sapos F }.
(** nearest_transmitter_estimator.h:23-24; transmitters are (id, (x, y)), their type is not read *)
Record saest (F : Type) := mkSaest { es_sm : sasm F; es_tx : list (string * (F * F)) }.

Section SaPos.
Context {F : Type} {NF : Num F} {SO : Sorter}.
Notation srad := (stamped (radio F)).

(** * measurement_preprocessor.cpp *)
(** 19-25 *)
Definition sa_config (avg shift : F) : res sacfg :=
  a <- to_ms avg ;;
  s <- to_ms shift ;;
  let s := if (s =? 0)%Z || (a <? s)%Z then a else s in
  Ok (mkSacfg (a - s) s).
(** h:22-24 *)
Definition sabuf0 : sabuf F := mkSabuf [] (-1) (-1).

(** 91-101, the body of the loop *)
Definition sa_store (b : sabuf F) (m : srad) : sabuf F :=
  mkSabuf (if (sb_last b <? st_ts m)%Z then sb_ms b ++ [m] else sb_ms b) (sb_last b)
    (Z.max (st_ts m) (sb_cur b)).
(** 83-102 addMeasurements *)
Definition sa_add_all (b : sabuf F) (ts : Z) (ms : list srad) : sabuf F :=
  let b := if (sb_cur b =? -1)%Z then mkSabuf (sb_ms b) ts ts else b in
  fold_left sa_store ms b.
(** the call of 32-34 *)
Definition sa_add (b : sabuf F) (m : srad) : sabuf F := sa_add_all b (st_ts m) [m].

(** 104-181 extractMeasurements *)
Definition sa_extract (c : sacfg) (b : sabuf F) : sabuf F * list srad :=
  if (sb_cur b - sb_last b <? sc_shift c)%Z then (b, [])
  else
    let sorted := ssort id_lt (sb_ms b) in
    let out := map (fun g => mkSt (average_run g) (st_ts (fst g))) (runs sorted) in
    let ms := if (sc_keep c =? 0)%Z then []
              else drop_old (sb_cur b - sc_keep c) (ssort ts_lt sorted) in
    (mkSabuf ms (sb_cur b) (sb_cur b), out).

(** 64-68 isSignalTypeSupported, 70-73 isRssiValid *)
Definition sa_supported (c : sapcfg) (t : rtype) : bool :=
  match t with WIFI => sp_wifi c | BEACON => sp_ble c | _ => false end.
Definition sa_rssi_valid (r : F) : bool := (fofZ (-100) <! r) && (r <! f0).
(** 28-39 update *)
Definition sa_update (c : sapcfg) (p : sapre F) (m : srad) : sapre F :=
  mkSapre (if sa_supported c (r_type (st_data m)) && sa_rssi_valid (r_rssi (st_data m))
           then sa_add (sr_buf p) m else sr_buf p)
    (if (sr_cur p <? st_ts m)%Z then st_ts m else sr_cur p).
Definition sapre0 : sapre F := mkSapre sabuf0 (-1).

(** 47-50 *)
Definition srssi_lt (a b : srad) : bool := r_rssi (st_data a) <! r_rssi (st_data b).
(** 41-57 extractRadioMeasurements; mUseClosestAps and mNumClosestAps are constants *)
Definition sa_extract_radio (c : sapcfg) (p : sapre F) : res (sapre F * list srad) :=
  let '(b, out) := sa_extract (sp_buf c) (sr_buf p) in
  asc <- sort_res srssi_lt (rev out) ;;
  let d := rev asc in
  Ok (mkSapre b (sr_cur p), if Nat.ltb 5 (List.length d) then firstn 5 d else d).

(** examples/main.cpp:91-104 splitToPackets *)
Fixpoint sa_packets_from (c : sapcfg) (p : sapre F) (ms : list srad) : res (list (list srad)) :=
  match ms with
  | [] => Ok []
  | m :: t =>
      '(p, out) <- sa_extract_radio c (sa_update c p m) ;;
      rest <- sa_packets_from c p t ;;
      Ok (match out with [] => rest | _ => out :: rest end)
  end.
Definition sa_packets (c : sapcfg) (ms : list srad) : res (list (list srad)) := sa_packets_from c sapre0 ms.

(** * position_smoother.cpp *)
Definition sapos0 : sapos F := mkSapos f0 f0 f0 true (-1).
(** 10-17 *)
Definition sasm0 (smoothing : F) : sasm F :=
  let s := clamp01 smoothing in
  mkSasm false f0 f0 (min_alpha *! s +! max_alpha *! (f1 -! s)) sapos0.
(** 19-56 smoothPosition *)
Definition sa_smooth (m : sasm F) (p : sapos F) : sasm F * sapos F :=
  let old := sm_pos m in
  if (sa_ts old <? sa_ts p)%Z then
    let t := fofZ (sa_ts p - sa_ts old) /! fofZ 1000 in
    let a := sm_alpha m in
    let b := a *! a /! (fofZ 2 -! a) in
    let xp := sa_x old +! sm_vx m *! t in
    let vxp := sm_vx m +! (b /! t) *! (sa_x p -! xp) in
    let xs := xp +! a *! (sa_x p -! xp) in
    let yp := sa_y old +! sm_vy m *! t in
    let vyp := sm_vy m +! (b /! t) *! (sa_y p -! yp) in
    let ys := yp +! a *! (sa_y p -! yp) in
    let toolong := fofZ 10 <! t in
    if negb (sm_called m) || toolong then (mkSasm true f0 f0 a p, p)
    else
      let np := mkSapos xs ys (sa_prec p) (sa_empty p) (sa_ts p) in
      (mkSasm (sm_called m) vxp vyp a np, np)
  else (m, old).

(** * nearest_transmitter_estimator.cpp *)
(** 11-16 *)
Definition saest0 (txs : list (string * (F * F))) : saest F :=
  mkSaest (sasm0 (lit 9 10)) (fold_left (fun m t => mset (fst t) (snd t) m) txs []).
(** 18-26 *)
Definition sa_registered (e : saest F) (ms : list srad) : list srad :=
  filter (fun m => amem (r_id (st_data m)) (es_tx e)) ms.
(** 28-53 calculatePosition *)
Definition sa_calculate (e : saest F) (ms : list srad) : saest F * sapos F :=
  match sa_registered e ms with
  | [] => (e, sapos0)
  | m :: t =>
      let near := max_elem_from srssi_lt m t in
      match alookup (r_id (st_data near)) (es_tx e) with
      | None => (e, sapos0)
      | Some (x, y) =>
          let prec := fsqrt (fexp ((fofZ (-82) -! r_rssi (st_data near)) /! fofZ 3)) +! f1 in
          let '(sm, p) := sa_smooth (es_sm e) (mkSapos x y prec false (st_ts (last t m))) in
          (mkSaest sm (es_tx e), p)
      end
  end.
(** examples/main.cpp:119-128: the positions written to the output file *)
Fixpoint sa_track (e : saest F) (pk : list (list srad)) : list (sapos F) :=
  match pk with
  | [] => []
  | ms :: t => let '(e, p) := sa_calculate e ms in
               let rest := sa_track e t in
               if sa_empty p then rest else p :: rest
  end.
End SaPos.
