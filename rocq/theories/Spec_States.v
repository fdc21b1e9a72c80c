(** Vocabulary of C118: what getStates() and the sensor fusion have seen. *)
From Verif Require Import Base Client Spec_Client.
Set Implicit Arguments.
Local Open Scope list_scope.

Section Spec.
Context {F : Type} {NF : Num F}.
(** what the sensor fusion is fed for each measurement: the latest sensor
    sample, again and again until the next one, and the time of the measurement *)
Fixpoint fusion_inputs (last : stamped (sensor F)) (ms : list (measurement F)) : list (stamped (sensor F) * Z) :=
  match ms with
  | [] => []
  | m :: t =>
      let last := match st_data m with MSensor d => mkSt d (st_ts m) | _ => last end in
      (last, st_ts m) :: fusion_inputs last t
  end.
(** the latest sensor sample after [ms] *)
Definition last_sample (last : stamped (sensor F)) (ms : list (measurement F)) : stamped (sensor F) :=
  fold_left (fun last m => match st_data m with MSensor d => mkSt d (st_ts m) | _ => last end) ms last.
(** everything accepted in a sequence of calls *)
Definition all_accepted (bs : list (list (measurement F))) : list (measurement F) := flat_map (@accepted F) bs.
(** sums over the steps reported with each measurement *)
Definition steps_of (n : nstate F) : Z * F := (ns_steps n, ns_steplen n).
Definition motion_of (i : motion F) : Z * F := (mi_count i, mi_dist i).
Definition point_of (p : position F) : XY F := mkXY (p_x p) (p_y p).
End Spec.
