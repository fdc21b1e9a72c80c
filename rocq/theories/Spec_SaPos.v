(** Vocabulary of the stand-alone position estimation properties (C65-C68). *)
From Coq Require Import Reals.
From Verif Require Import Base NumReal LibR Preproc Spec_Preproc Smooth SaPos.
From Coq Require Import Permutation Sorted.
Set Implicit Arguments.
Local Open Scope list_scope.

Section Spec.
Context {F : Type} {NF : Num F} {SO : Sorter}.
Notation srad := (stamped (radio F)).

(** * Buffer (C65) *)
Inductive saop := SaAdd : srad -> saop | SaExtract : saop.
Definition sa_step (c : sacfg) (b : sabuf F) (o : saop) : sabuf F * list srad :=
  match o with SaAdd m => (sa_add b m, []) | SaExtract => sa_extract c b end.
Fixpoint sa_run (c : sacfg) (b : sabuf F) (ops : list saop) : sabuf F * list (list srad) :=
  match ops with
  | [] => (b, [])
  | o :: t => let '(b, out) := sa_step c b o in let '(b, outs) := sa_run c b t in (b, out :: outs)
  end.
Definition sa_added (ops : list saop) : list srad :=
  flat_map (fun o => match o with SaAdd m => [m] | SaExtract => [] end) ops.
(** no measurement bears the time -1 that marks an unused buffer *)
Definition sa_timed (ops : list saop) : Prop := Forall (fun m => (0 <= st_ts m)%Z) (sa_added ops).

(** The window: the measurements in it in the order of arrival and, after the
    first measurement, the time of the last packet (or of the first
    measurement) and the newest time seen. *)
Record sawin := mkSw { sw_in : list srad; sw_time : option (Z * Z) }.
Definition sawin0 : sawin := mkSw [] None.
(** a packet is due *)
Definition sw_due (c : sacfg) (w : sawin) : bool :=
  match sw_time w with None => false | Some (last, cur) => (sc_shift c <=? cur - last)%Z end.
Definition sw_step (c : sacfg) (w : sawin) (o : saop) : sawin :=
  match o, sw_time w with
  | SaAdd m, None => mkSw [] (Some (st_ts m, st_ts m))
  | SaAdd m, Some (last, cur) =>
      mkSw (if (last <? st_ts m)%Z then sw_in w ++ [m] else sw_in w) (Some (last, Z.max cur (st_ts m)))
  | SaExtract, None => w
  | SaExtract, Some (_, cur) =>
      if sw_due c w
      then mkSw (if (sc_keep c =? 0)%Z then [] else filter (fun m => (cur - sc_keep c <=? st_ts m)%Z) (sw_in w)) (Some (cur, cur))
      else w
  end.
(** [out] holds the averages of [w], with the time of one of the averaged measurements *)
Definition sa_averages (out w : list srad) : Prop :=
  averages_of (map (@st_data (radio F)) out) w /\
  forall o, In o out -> exists m, In m (of_tx (r_id (st_data o)) w) /\ st_ts o = st_ts m /\
    st_data o = radio_set (st_data m) (r_rssi (st_data o)) (r_dist (st_data o)).
Fixpoint sa_outs_ok (c : sacfg) (w : sawin) (ops : list saop) (outs : list (list srad)) : Prop :=
  match ops, outs with
  | [], [] => True
  | o :: t, out :: outs =>
      match o with
      | SaAdd _ => out = []
      | SaExtract => if sw_due c w then sa_averages out (sw_in w) else out = []
      end /\ sa_outs_ok c (sw_step c w o) t outs
  | _, _ => False
  end.
(** newest time seen at each non-empty packet *)
Fixpoint sa_hand_times (now : Z) (ops : list saop) (outs : list (list srad)) : list Z :=
  match ops, outs with
  | SaAdd m :: t, _ :: outs => sa_hand_times (Z.max now (st_ts m)) t outs
  | SaExtract :: t, o :: outs =>
      match o with [] => sa_hand_times now t outs | _ => now :: sa_hand_times now t outs end
  | _, _ => []
  end.

(** * Packets (C66) *)
(** accepted by the preprocessor *)
Definition sa_accepts (c : sapcfg) (m : srad) : Prop :=
  (r_type (st_data m) = WIFI /\ sp_wifi c = true \/ r_type (st_data m) = BEACON /\ sp_ble c = true) /\
  (fofZ (-100) <! r_rssi (st_data m)) = true /\ (r_rssi (st_data m) <! f0) = true.

(** * Estimator (C67) *)
(** the last entry of [txs] with this id *)
Definition registered (txs : list (string * (F * F))) (id : string) (p : F * F) : Prop :=
  exists l1 l2, txs = l1 ++ (id, p) :: l2 /\ ~ In id (map fst l2).
(** estimators reached from the start *)
Inductive sa_reach (txs : list (string * (F * F))) : saest F -> Prop :=
  | SR0 : sa_reach txs (saest0 txs)
  | SRcalc e ms : sa_reach txs e -> sa_reach txs (fst (sa_calculate e ms)).
End Spec.
Arguments saop : clear implicits.
Arguments sawin : clear implicits.

(** * Smoother (C68) *)
(** what the stand-alone program keeps of a position of the navigation core *)
Definition sa_proj {F} (p : position F) : sapos F := mkSapos (p_x p) (p_y p) (p_dev p) (p_empty p) (p_ts p).
Definition sa_of {F} {NF : Num F} (s : settings F) (a : absm F) : sasm F :=
  mkSasm (ab_called a) (ab_vx a) (ab_vy a) (ab_alpha s) (sa_proj (ab_pos a)).
Definition plain {F} (s : settings F) : Prop := s_accsmooth s = false /\ s_speedcon s = false /\ s_barriers s = false.

(** successive results *)
Fixpoint sa_smooth_all {F} {NF : Num F} (m : sasm F) (ps : list (sapos F)) : list (sapos F) :=
  match ps with
  | [] => []
  | p :: t => let '(m, r) := sa_smooth m p in r :: sa_smooth_all m t
  end.
Definition sa_at (p : sapos RX) (x y : R) : Prop := sa_x p = Some x /\ sa_y p = Some y.
(** positions of a uniform motion, one every [H] ms after time [T] *)
Definition sa_motion (T H : Z) (cx cy dx dy : R) (ps : list (sapos RX)) : Prop :=
  forall k p, nth_error ps k = Some p -> sa_ts p = (T + Z.of_nat (S k) * H)%Z /\
    sa_at p (cx + INR (S k) * dx) (cy + INR (S k) * dy).

(** * Packets over the reals *)
Definition packet_ok (c : sapcfg) (ms out : list (stamped (radio RX))) : Prop :=
  out <> [] /\ (List.length out <= 5)%nat /\ NoDup (map (fun o => r_id (st_data o)) out) /\
  StronglySorted (fun a b => exists u v, r_rssi (st_data a) = Some u /\ r_rssi (st_data b) = Some v /\ (v <= u)%R) out /\
  Forall (fun o => exists m v, In m ms /\ sa_accepts c m /\ r_id (st_data o) = r_id (st_data m) /\
    r_type (st_data o) = r_type (st_data m) /\ st_ts o = st_ts m /\
    r_rssi (st_data o) = Some v /\ (-100 < v < 0)%R) out.
