(** Vocabulary of the radio preprocessing properties (C16-C21). *)
From Verif Require Import Base Preproc.
From Coq Require Import Permutation Sorted.
Set Implicit Arguments.

Section Spec.
Context {F : Type} {NF : Num F}.
Notation srad := (stamped (radio F)).

(** measurements of one transmitter *)
Definition of_tx (tx : string) (w : list srad) : list srad :=
  filter (fun m => String.eqb (r_id (st_data m)) tx) w.
(** arithmetic mean of [g], summed in some order *)
Definition mean_of (f : srad -> F) (g : list srad) (x : F) : Prop :=
  exists g', Permutation g g' /\ x = fsum f g' /! fofnat (List.length g').
(** [out] lists every transmitter of [w] once, in increasing id order, with the
    mean rssi and mean distance of its measurements in [w] and the remaining
    fields of one of them *)
Definition averages_of (out : list (radio F)) (w : list srad) : Prop :=
  StronglySorted (fun a b => String.ltb a b = true) (map (@r_id F) out) /\
  (forall tx, In tx (map (@r_id F) out) <-> exists m, In m w /\ r_id (st_data m) = tx) /\
  (forall o, In o out ->
     mean_of (fun m => r_rssi (st_data m)) (of_tx (r_id o) w) (r_rssi o) /\
     mean_of (fun m => r_dist (st_data m)) (of_tx (r_id o) w) (r_dist o) /\
     exists m, In m (of_tx (r_id o) w) /\ o = radio_set (st_data m) (r_rssi o) (r_dist o)).

(** Operations on the radio buffer *)
Inductive bop :=
| BAdd : srad -> bop
| BExtract : Z -> bop.  (* time of the last detected step, 0 if none *)
Definition buf_step (c : bufcfg) {SO : Sorter} (b : buffer F) (o : bop) : buffer F * list (radio F) :=
  match o with
  | BAdd m => (buffer_add b m, [])
  | BExtract s => buffer_extract c b s
  end.
Fixpoint buf_run {SO : Sorter} (c : bufcfg) (b : buffer F) (ops : list bop) : buffer F * list (list (radio F)) :=
  match ops with
  | [] => (b, [])
  | o :: t => let '(b1, out) := buf_step c b o in
              let '(b2, outs) := buf_run c b1 t in (b2, out :: outs)
  end.

(** The abstract window: everything ever added, the measurements added since
    the last extraction that dropped data, and four times. *)
Record win := mkWin {
  w_all : list srad;        (* all measurements, oldest first *)
  w_since : list srad;      (* those after the last dropping extraction *)
  w_drop : option Z;        (* time of the last dropping extraction *)
  w_ref : Z;                (* last extraction, or first measurement *)
  w_cur : option Z;         (* last measurement *)
  w_step : Z }.             (* last reported step *)
Definition win0 : win := mkWin [] [] None 0 None 0.
(** what the buffer stores for a measurement: its rssi plus the (zero) bias *)
Definition stored (m : srad) : srad :=
  mkSt (radio_set (st_data m) (r_rssi (st_data m) +! f0) (r_dist (st_data m))) (st_ts m).
Definition win_now (w : win) : Z := match w_cur w with Some t => t | None => 0 end.
Definition standing_still (c : bufcfg) (w : win) : bool :=
  bc_usestops c && (0 <? w_step w)%Z && (bc_stop c <? win_now w - w_step w)%Z.
Definition win_step (c : bufcfg) (w : win) (o : bop) : win :=
  match o with
  | BAdd m => mkWin (w_all w ++ [m]) (w_since w ++ [m]) (w_drop w)
                (match w_cur w with None => st_ts m | Some _ => w_ref w end) (Some (st_ts m)) (w_step w)
  | BExtract s =>
      let w := mkWin (w_all w) (w_since w) (w_drop w) (w_ref w) (w_cur w) (if (0 <? s)%Z then s else w_step w) in
      if (win_now w - w_ref w <? bc_shift c)%Z then w
      else if standing_still c w
      then mkWin (w_all w) (w_since w) (w_drop w) (win_now w) (w_cur w) (w_step w)
      else mkWin (w_all w) [] (Some (win_now w)) (win_now w) (w_cur w) (w_step w)
  end.
(** the extraction happens *)
Definition win_ready (c : bufcfg) (w : win) : bool := (bc_shift c <=? win_now w - w_ref w)%Z.
(** measurements in the window *)
Definition win_content (c : bufcfg) (w : win) : list srad :=
  match w_drop w with
  | None => w_all w
  | Some t => if (bc_keep c =? 0)%Z then w_since w
              else filter (fun m => (t - bc_keep c <=? st_ts m)%Z) (w_all w)
  end.

(** the abstract run *)
Definition win_run (c : bufcfg) (ops : list bop) (w : win) : win := fold_left (win_step c) ops w.

(** one output per operation, as the abstract window prescribes *)
Fixpoint outs_ok (c : bufcfg) (w : win) (ops : list bop) (outs : list (list (radio F))) : Prop :=
  match ops, outs with
  | [], [] => True
  | o :: t, out :: outs =>
      match o with
      | BAdd _ => out = []
      | BExtract _ => if win_ready c w then averages_of out (map stored (win_content c w)) else out = []
      end /\ outs_ok c (win_step c w o) t outs
  | _, _ => False
  end.

(** measurements added *)
Definition added (ops : list bop) : list srad :=
  flat_map (fun o => match o with BAdd m => [m] | BExtract _ => [] end) ops.
(** timestamps of the added measurements *)
Definition add_times (ops : list bop) : list Z :=
  flat_map (fun o => match o with BAdd m => [st_ts m] | BExtract _ => [] end) ops.
(** positive and non-decreasing *)
Definition time_ordered (ops : list bop) : Prop :=
  StronglySorted Z.le (add_times ops) /\ Forall (fun t => (0 < t)%Z) (add_times ops).

(** times (of the last measurement) at which a non-empty list was handed on *)
Fixpoint hand_times (now : Z) (ops : list bop) (outs : list (list (radio F))) : list Z :=
  match ops, outs with
  | BAdd m :: t, _ :: outs => hand_times (st_ts m) t outs
  | BExtract _ :: t, o :: outs =>
      match o with [] => hand_times now t outs | _ => now :: hand_times now t outs end
  | _, _ => []
  end.

(** C20: the validity filter *)
Definition acceptable_tx (s : settings F) (c : collector F) (tx : string) : Prop :=
  s_unknown s = true \/
  exists before l after t,
    col_levels c = before ++ l :: after /\
    Forall (fun l' => ~ In tx (map fst (l_txs l'))) before /\
    alookup tx (l_txs l) = Some t /\ (t_type t = TLOCATOR <-> s_tracking s = true).
Definition enabled_signal (s : settings F) (t : rtype) : Prop :=
  match t with
  | WIFI | WIFI_RTT => s_signals s <> SBLE
  | BEACON | BLUETOOTH | EDDYSTONE => s_signals s <> SWIFI
  end.
Definition accepted_radio (s : settings F) (c : collector F) (m : radio F) : Prop :=
  enabled_signal s (r_type m) /\ acceptable_tx s c (r_id m) /\
  match s_mtype s with
  | RSSI => (r_rssi m <! f0) = true /\ (s_cutoff s <! r_rssi m) = true
  | _ => r_type m = WIFI_RTT
  end.
(** a collector as built by addGeoLevel with distinct ids *)
Definition wf_collector (c : collector F) : Prop :=
  NoDup (map (@l_id F) (col_levels c)) /\
  forall id i, alookup id (col_index c) = Some i <-> exists l, nth_error (col_levels c) i = Some l /\ l_id l = id.
End Spec.
Arguments bop F : clear implicits.
Arguments win F : clear implicits.
