(** C22. *)
From Verif Require Import Base LevelEst Spec_Level Pf_History.
Local Open Scope string_scope.
Local Open Scope list_scope.

Theorem C22_level_history :
  (* nothing is reported before the first detection, then one of the detected levels *)
  (forall ds, level_after ds = "" <-> Forall (fun d => d = "") ds) /\
  (forall ds, level_after ds = "" \/ In (level_after ds) ds) /\
  (* empty detections are invisible *)
  (forall a b, level_after (a ++ "" :: b) = level_after (a ++ b)) /\
  (* warm-up: the first detection, until some level reaches five *)
  (forall ds, below5 ds -> level_after ds = first_det ds) /\
  (forall ds e, e <> "" -> below5 ds -> occ e ds = 4%nat -> level_after (ds ++ [e]) = e) /\
  (* steady state: [ds] ends with the current level c, [seg] does not contain c *)
  (forall ds c seg, settled ds -> level_after ds = c -> last_det ds = c -> ~ In c seg -> below5 seg ->
     level_after (ds ++ seg) = c /\ level_after (ds ++ seg ++ [c]) = c /\
     forall e, e <> "" -> e <> c -> occ e seg = 4%nat -> level_after (ds ++ seg ++ [e]) = e).
Proof. exact hysteresis. Qed.
Print Assumptions C22_level_history.
