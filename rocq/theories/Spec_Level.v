(** Vocabulary of the level properties (C22-C25). *)
From Verif Require Import Base LevelEst.
Set Implicit Arguments.
Local Open Scope string_scope.
Local Open Scope list_scope.

(** * C22 *)
(** Outputs of a sequence of calls, oldest first *)
Fixpoint hist_outputs (h : lhist) (ds : list string) : list string :=
  match ds with
  | [] => []
  | d :: t => snd (hist_step h d) :: hist_outputs (fst (hist_step h d)) t
  end.
(** The level reported by the last call on a fresh history *)
Definition level_after (ds : list string) : string := last (hist_outputs lhist0 ds) "".

Definition occ (x : string) (ds : list string) : nat := count_occ string_dec ds x.
(** no level was detected five times *)
Definition below5 (ds : list string) : Prop := forall x, x <> ""%string -> (occ x ds <= 4)%nat.
(** some level was detected five times *)
Definition settled (ds : list string) : Prop := exists x, x <> ""%string /\ (5 <= occ x ds)%nat.

(** first non-empty detection *)
Definition first_det (ds : list string) : string :=
  match find (fun d => negb (String.eqb d "")) ds with Some d => d | None => ""%string end.
(** last non-empty detection *)
Definition last_det (ds : list string) : string := first_det (rev ds).


(** * C23 *)
Section Baro.
Context {F : Type} {NF : Num F}.
(** one call: the level decided by the history and the current sensor sample *)
Definition bcall : Type := string * stamped (sensor F).
(** levels returned by a sequence of calls on a fresh barometer, oldest first *)
Fixpoint baro_outputs (b : baro F) (cs : list bcall) : list string :=
  match cs with
  | [] => []
  | c :: t => snd (baro_step b (fst c) (snd c)) :: baro_outputs (fst (baro_step b (fst c) (snd c))) t
  end.
Definition baro_state (cs : list bcall) : baro F :=
  fold_left (fun b c => fst (baro_step b (fst c) (snd c))) cs baro0.
(** pressures among the samples, in order *)
Definition pressures (cs : list bcall) : list F :=
  flat_map (fun c => match s_type (st_data (snd c)) with
                     | BAROMETER => [vx (s_val (st_data (snd c)))]
                     | _ => []
                     end) cs.
Definition lastn {A : Type} (n : nat) (l : list A) : list A := skipn (List.length l - n) l.
(** the 101 most recent pressures, and the (up to) 101 before them *)
Definition newest (ps : list F) : list F := lastn 101 ps.
Definition older (ps : list F) : list F := lastn 101 (firstn (List.length ps - 101) ps).
Definition mean (l : list F) : F := fsum (fun x => x) l /! fofnat (List.length l).
(** decision on a proposed level, given the previously returned one *)
Definition baro_decides (prev lid : string) (ps : list F) : string :=
  if Nat.ltb (List.length ps) 201 then lid
  else if String.eqb prev lid then lid
  else
    let cur := mean (newest ps) in
    let last := mean (older ps) in
    if (cur <=! feps) || (last <=! feps) then prev
    else if fofZ 2 <! fabs (delta_height cur last) then lid
    else prev.
End Baro.
Arguments bcall F : clear implicits.

(** * C24, C25 *)
Section Detect.
Context {F : Type} {NF : Num F}.
(** a measured transmitter is installed on the level *)
Definition visible (c : collector F) (ms : list (radio F)) (l : level F) : Prop :=
  In l (col_levels c) /\ exists m, In m ms /\ In (r_id m) (map fst (l_txs l)).

Definition on_level (l : level F) (ms : list (radio F)) : list (radio F) :=
  filter (fun m => existsb (String.eqb (r_id m)) (map fst (l_txs l))) ms.
Definition tx_A (l : level F) (m : radio F) : F :=
  match alookup (r_id m) (l_txs l) with Some t => pl_A (t_pl t) | None => f0 end.
(** average rssi (plus average A), reduced by the share of measurements *)
Definition tx_score (usePower : bool) (ms : list (radio F)) (l : level F) : F :=
  let k := List.length (on_level l ms) in
  let avg (f : radio F -> F) := fsum f (on_level l ms) /! fofZ (Z.max (Z.of_nat k) 1) in
  (avg (@r_rssi F) +! (if usePower then avg (tx_A l) else f0)) /!
  (f1 +! (lit 1 10 *! fofnat k) /! fofnat (List.length ms)).

(** fingerprint entries of a transmitter on a level, in storage order *)
Definition fingerprints (l : level F) (tx : string) : list (sigstat F) :=
  flat_map (fun rp => map snd (filter (fun e => String.eqb (fst e) tx) (rp_fp rp))) (rm_points (l_rm l)).
Definition heard (l : level F) (m : radio F) : bool :=
  match fingerprints l (r_id m) with [] => false | _ => true end.
(** mean closeness per heard measurement, summed, times their number *)
Definition rm_score (ms : list (radio F)) (l : level F) : F :=
  let hits := filter (heard l) ms in
  fsum (fun m =>
    let fps := fingerprints l (r_id m) in
    fsum (fun s => (f1 *! f1) /! (fabs (fabs (r_rssi m) -! fabs (ss_mean s)) +! lit 1 10)) fps
      /! fofnat (List.length fps)) hits *! fofnat (List.length hits).
(** best weight of a reference point *)
Definition best_rp_score (ms : list (radio F)) (l : level F) (w : F) : Prop :=
  (w = f0 \/ exists rp, In (rp, w) (rp_weights (level_rmap l) ms true)) /\
  forall rp w', In (rp, w') (rp_weights (level_rmap l) ms true) -> (w <! w') = false.
End Detect.
