(** Vocabulary of the freshness property (C93). *)
From Verif Require Import Base Types Client Spec_Preproc.
Set Implicit Arguments.
Local Open Scope Z_scope.

Section Spec.
Context {F : Type} {NF : Num F}.

(** the client keeps the signal *)
Definition heard_from (s : settings F) (col : collector F) (m : measurement F) (i : string) : Prop :=
  exists r, st_data m = MRadio r /\ r_id r = i /\ accepted_radio s col r.
Definition a_signal (s : settings F) (col : collector F) (m : measurement F) : Prop := exists i, heard_from s col m i.

(** once there has been a signal, no measurement comes more than [gap] ms after
    the signals before it *)
Definition never_silent (s : settings F) (col : collector F) (gap : Z) (ms : list (measurement F)) : Prop :=
  forall a m b, ms = a ++ m :: b -> Exists (a_signal s col) a ->
  exists m1, In m1 a /\ a_signal s col m1 /\ st_ts m - st_ts m1 <= gap.

(** whole centimetres, rounded down, of the nearest number between two others *)
Definition put (lo hi x : F) : F :=
  let y := if x <! lo then lo else x in ffloor ((if hi <! y then hi else y) *! fofZ 100) /! fofZ 100.
(** the output shows the place of transmitter [t] of level [l], moved onto the
    map of some level and rounded to centimetres *)
Definition shows (col : collector F) (l : level F) (t : transmitter F) (o : noutput F) : Prop :=
  o_level o = l_id l /\ exists l0, In l0 (col_levels col) /\
    mkGeo (o_lat o) (o_lon o) =
    local_to_gps (mkXY (put (px (bmin (l_box l0))) (px (bmax (l_box l0))) (zx (t_pt t)))
                       (put (py (bmin (l_box l0))) (py (bmax (l_box l0))) (zy (t_pt t)))) (l_bind l).
(** a fix, made at the time of [m], at a transmitter heard less than [age] ms before *)
Definition fresh_fix (s : settings F) (col : collector F) (age : Z) (ms : list (measurement F)) (m : measurement F) (o : noutput F) : Prop :=
  exists m1 i l t, In m1 ms /\ heard_from s col m1 i /\ st_ts m - age < st_ts m1 <= st_ts m /\
    In l (col_levels col) /\ In (i, t) (l_txs l) /\ shows col l t o.

(** a client that reports the strongest transmitter as it is *)
Record bare (s : settings F) : Prop := mkBare {
  br_algo : s_algo s <> KNN; br_stops : s_stops s = false; br_smooth : s_usesmooth s = false;
  br_time : s_timesmooth s = false; br_graph : s_graphproj s = false; br_baro : s_baro s = false }.
End Spec.
