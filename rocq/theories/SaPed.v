(** Stand-alone pedometer.  Models standalone_algorithms/pedometer/src/
    {pedometer,vector3d}.cpp and the loop of examples/main.cpp.  Its
    SensorMeasurement (pedometer.h:10-14) has no type: the type of a sample is
    ignored here.  calculateFilteredAccMagnitudes, calculateSteps,
    calculateStepLength (lines 46-151) and Vector3d::magnitude are the same
    text as in the navigation core, modelled by [filtered_magnitude],
    [ped_steps], [step_length] and [v_mag]. *)
From Verif Require Export Sensors.
Set Implicit Arguments.

Section SaPed.
Context {F : Type} {NF : Num F}.

(** pedometer.cpp:27-38, the body of the loop *)
Definition saped_push (p : pedometer F) (m : stamped (sensor F)) : res (pedometer F) :=
  let acc := pd_acc p ++ [m] in
  g <- filtered_magnitude acc (st_ts m) ;;
  let mags := if (mg_ts g =? 0)%Z then pd_mags p else pd_mags p ++ [g] in
  acc <- skip_while (fun x => (2 * 2500 <? st_ts m - st_ts x)%Z) acc ;;
  Ok (mkPed acc mags (pd_times p) (pd_size p) (pd_possible p) (pd_steptime p)).

(** pedometer.cpp:23-39 update *)
Fixpoint saped_push_all (p : pedometer F) (ms : list (stamped (sensor F))) : res (pedometer F) :=
  match ms with
  | [] => Ok p
  | m :: t => p1 <- saped_push p m ;; saped_push_all p1 t
  end.
Definition saped_update (p : pedometer F) (ms : list (stamped (sensor F))) : res (pedometer F) :=
  saped_push_all (mkPed (pd_acc p) (pd_mags p) (pd_times p) (Nat.max (List.length (pd_mags p)) 1)
                    (pd_possible p) (pd_steptime p)) ms.

(** update followed by calculateSteps, as in examples/main.cpp:45-50 *)
Definition saped_batch (p : pedometer F) (ms : list (stamped (sensor F))) : res (pedometer F * list (step F)) :=
  p1 <- saped_update p ms ;; ped_steps p1.
Fixpoint saped_run (p : pedometer F) (bs : list (list (stamped (sensor F)))) :
    res (pedometer F * list (list (step F))) :=
  match bs with
  | [] => Ok (p, [])
  | b :: t => '(p1, s) <- saped_batch p b ;; '(p2, r) <- saped_run p1 t ;; Ok (p2, s :: r)
  end.
(** examples/main.cpp:41-53: the number printed *)
Definition saped_count (ms : list (stamped (sensor F))) : res nat :=
  '(_, r) <- saped_run ped0 (map (fun m => [m]) ms) ;; Ok (List.length (List.concat r)).
End SaPed.
