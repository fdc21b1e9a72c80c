(** C23, C24, C25. *)
From Coq Require Import Reals.
From Verif Require Import Base NumOrd NumReal LevelEst Spec_Level Pf_Level Ex.
Local Open Scope string_scope.
Local Open Scope list_scope.
#[local] Existing Instance nf.

(** C23. The level returned by a call is determined by the previously returned
    level, the proposed level and the pressures received since the second call. *)
Theorem C23_barometer_decision {F : Type} {NF : Num F} (cs : list (bcall F)) (c : bcall F) :
  last (baro_outputs baro0 (cs ++ [c])) "" =
  match cs with
  | [] => fst c
  | _ => baro_decides (last (baro_outputs baro0 cs) "") (fst c) (pressures (tl (cs ++ [c])))
  end.
Proof. exact (baro_decision cs c). Qed.
Print Assumptions C23_barometer_decision.

Theorem C23_barometer_bounded {F : Type} {NF : Num F} (cs : list (bcall F)) :
  (List.length (ba_new (baro_state cs)) <= 101)%nat /\ (List.length (ba_old (baro_state cs)) <= 101)%nat.
Proof. exact (baro_bounded cs). Qed.
Print Assumptions C23_barometer_bounded.

Theorem C23_barometer_level_known {F : Type} {NF : Num F} (cs : list (bcall F)) :
  Forall (fun o => In o (map fst cs)) (baro_outputs baro0 cs).
Proof. exact (baro_member cs). Qed.
Print Assumptions C23_barometer_level_known.

Theorem C23_barometer_height (p q : R) : (0 < p)%R -> (0 < q)%R ->
  delta_height (Some p : RX) (Some q) =
  Some (- (831 / 100 * 288) / (98 / 10 * (289 / 10000)) * ln (p / q))%R.
Proof. exact (@delta_height_real p q). Qed.
Print Assumptions C23_barometer_height.

(** the estimator as a whole: the history decides on the detected levels, and
    the barometer, if it is used, on what the history decided *)
Fixpoint estimator_outputs {F : Type} {NF : Num F} (useBaro : bool) (e : levest F) (cs : list (bcall F)) : list string :=
  match cs with
  | [] => []
  | c :: t => snd (level_step useBaro e (fst c) (snd c)) :: estimator_outputs useBaro (fst (level_step useBaro e (fst c) (snd c))) t
  end.
Theorem C23_estimator {F : Type} {NF : Num F} (useBaro : bool) (cs : list (bcall F)) :
  let decided := hist_outputs lhist0 (map fst cs) in
  estimator_outputs useBaro (mkLev lhist0 baro0) cs = (if useBaro then baro_outputs baro0 (combine decided (map snd cs)) else decided).
Proof.
  cbv zeta. generalize lhist0 (@baro0 F). induction cs as [|[d m] t IH]; intros h b; [destruct useBaro; reflexivity|].
  cbn [estimator_outputs hist_outputs map fst snd combine baro_outputs]. unfold level_step. cbn [le_hist le_baro].
  destruct (hist_step h d) as [h' lid] eqn:Eh. cbn [fst snd]. destruct useBaro.
  - cbn [combine baro_outputs fst snd]. destruct (baro_step b lid m) as [b' o] eqn:Eb. cbn [fst snd]. f_equal. apply IH.
  - cbn [fst snd]. f_equal. apply IH.
Qed.
Print Assumptions C23_estimator.
Example C23_estimator_example :
  let m := mkSt (mkSensor BAROMETER (mkV (@fofZ _ nf 1000) (@fofZ _ nf 0) (@fofZ _ nf 0))) 0%Z in
  @estimator_outputs _ nf true (mkLev lhist0 baro0) (("A", m) :: repeat ("B", m) 6) = ["A"; "A"; "A"; "A"; "A"; "B"; "B"].
Proof. vm_compute. reflexivity. Qed.

(** both branches of the decision occur (stand-in logarithm: 0) *)
Example C23_example :
  let m := mkSt (mkSensor BAROMETER (mkV (@fofZ _ nf 1000) (@fofZ _ nf 0) (@fofZ _ nf 0))) 0%Z in
  let out n := last (@baro_outputs _ nf baro0 (repeat ("A", m) n ++ [("B", m)])) "" in
  out 50%nat = "B" /\ out 250%nat = "A".
Proof. split; vm_compute; reflexivity. Qed.

(** C24 *)
Theorem C24_level_by_transmitters {F : Type} {NF : Num F} {OF : NumOrd F}
    (up : bool) (c : collector F) (ms : list (radio F)) :
  exists r, detect_tx up c ms = Ok r /\
  ((r = "" /\ forall l, visible c ms l -> (fofZ (-1000) <! tx_score up ms l) = false) \/
   (exists l, visible c ms l /\ r = l_id l /\ (fofZ (-1000) <! tx_score up ms l) = true /\
      forall l', visible c ms l' -> (tx_score up ms l <! tx_score up ms l') = false)).
Proof. exact (detect_tx_best up c ms). Qed.
Print Assumptions C24_level_by_transmitters.

Example C24_example :
  visible ex_col ex_ms (@ex_L1 _ nf) /\ visible ex_col ex_ms (@ex_L2 _ nf) /\
  @detect_tx _ nf true ex_col ex_ms = Ok "L1" /\ @detect_tx _ nf true ex_col [] = Ok "".
Proof.
  split; [|split; [|split; vm_compute; reflexivity]].
  - split; [left; reflexivity|]. exists (@ex_radio _ nf "a" (-55)). split; left; reflexivity.
  - split; [right; left; reflexivity|]. exists (@ex_radio _ nf "c" (-90)). split; [right; right; left; reflexivity|left; reflexivity].
Qed.

(** C25 *)
Theorem C25_level_by_radiomap {F : Type} {NF : Num F} {OF : NumOrd F}
    (best : bool) (c : collector F) (ms : list (radio F)) :
  NoDup (map (@l_id F) (col_levels c)) ->
  exists r, detect_rm best (levels_rmaps c) c ms = Ok r /\
  exists score : level F -> F,
  (forall l, In l (col_levels c) -> if best then best_rp_score ms l (score l) else score l = rm_score ms l) /\
  ((r = "" /\ forall l, In l (col_levels c) -> (f0 <! score l) = false) \/
   (exists l, In l (col_levels c) /\ r = l_id l /\ (f0 <! score l) = true /\
      (exists m, In m ms /\ fingerprints l (r_id m) <> []) /\
      forall l', In l' (col_levels c) -> (score l <! score l') = false)).
Proof. exact (detect_rm_best best c ms). Qed.
Print Assumptions C25_level_by_radiomap.

Example C25_example :
  NoDup (map (@l_id _) (col_levels (@ex_col _ nf))) /\
  @detect_rm _ nf false (levels_rmaps ex_col) ex_col ex_ms = Ok "L1" /\
  @detect_rm _ nf true (levels_rmaps ex_col) ex_col ex_ms = Ok "L1" /\
  @detect_rm _ nf false (levels_rmaps ex_col) ex_col [@ex_radio _ nf "z" (-40)] = Ok "".
Proof.
  split; [repeat constructor; cbn; intuition discriminate|].
  repeat split; vm_compute; reflexivity.
Qed.

(** The order laws used by C24 and C25 hold for the reals and for binary64
    with any libm. *)
Theorem order_laws_real : NumOrd RX.
Proof. exact ord_real. Qed.
Theorem order_laws_binary64 (t : NumFloat.transc) : @NumOrd NumFloat.SF (NumFloat.num_float t).
Proof. exact (ord_float t). Qed.
Print Assumptions order_laws_binary64.
