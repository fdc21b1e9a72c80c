(** Vocabulary of the fingerprint accuracy property (C100). *)
From Coq Require Import Reals.
From Verif Require Import Base NumReal LevelModel Client Spec_Preproc Spec_Post Spec_Place.
Set Implicit Arguments.
Local Open Scope R_scope.

(** the radio map of a level knows the transmitter *)
Definition mapped (l : level RX) (id : string) : Prop :=
  exists r, In r (rm_points (l_rm l)) /\ In id (map fst (rp_fp r)).
(** of the levels, only [l] can have the transmitter of the measurement in its
    radio map; it is no GNSS position *)
Definition maps_only (col : collector RX) (l : level RX) (m : measurement RX) : Prop :=
  match st_data m with
  | MRadio r => forall l', In l' (col_levels col) -> mapped l' (r_id r) -> l' = l
  | MSensor d => s_type d <> LOCATION
  | MNmea _ => True
  end.
(** every reference point of the level lies in the rectangle *)
Definition spans (k : rect) (l : level RX) : Prop :=
  forall r, In r (rm_points (l_rm l)) ->
    exists x y, px (rp_pt r) = Some x /\ py (rp_pt r) = Some y /\ in_rect k x y.

(** the measurement is no GNSS position *)
Definition no_gnss (m : measurement RX) : Prop := match st_data m with MSensor d => s_type d <> LOCATION | _ => True end.
(** the bounding box of the level in the map file has real corners, excludes
    the poles and is at most half the globe wide *)
Definition plain_box (g : geolevel RX) : Prop := exists la1 lo1 la2 lo2, geo_box (gl_box g) la1 lo1 la2 lo2 /\
  -90 < la1 < 90 /\ -90 < la2 < 90 /\ -180 < lo1 <= 180 /\ -180 < lo2 <= 180.
(** the fix is the south-western corner of the bounding box of its level *)
Definition at_corner (gs : list (geolevel RX)) (o : noutput RX) : Prop :=
  exists g, In g gs /\ o_level o = gl_id g /\ forall la1 lo1 la2 lo2, real_box (gl_box g) la1 lo1 la2 lo2 ->
    o_lat o = Some (Rmin la1 la2) /\ o_lon o = Some (Rmin lo1 lo2).
