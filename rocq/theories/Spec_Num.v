(** Vocabulary of the definedness and map-membership properties (C88, C90). *)
From Coq Require Import Reals.
From Verif Require Import Base NumReal LibR LevelModel Client Spec_Knn Spec_Post.
Set Implicit Arguments.
Local Open Scope R_scope.

(** a level of the map file whose numbers are numbers: a box of at most half
    the globe that excludes the poles, real coordinates and fingerprints *)
Record real_geolevel (g : geolevel RX) : Prop := mkRG {
  rg_box : exists la1 lo1 la2 lo2, geo_box (gl_box g) la1 lo1 la2 lo2 /\ -90 < la1 < 90 /\ -90 < la2 < 90;
  rg_txs : forall t, In t (gl_txs g) -> defined (gt_lat t) /\ defined (gt_lon t);
  rg_rps : forall r, In r (gl_rps g) -> defined (lat (grp_pt r)) /\ defined (lon (grp_pt r)) /\
    forall i ss, In (i, ss) (grp_fp r) -> defined (ss_mean ss) }.

(** settings whose numbers are numbers, with positive deviations and log-model slopes that are not zero *)
Record real_tuning (s : settings RX) : Prop := mkRT {
  rt_fuse : exists v pd old bor, real_settings s v pd old bor;
  rt_gps : exists d, s_mingpsdev s = Some d /\ 0 < d;
  rt_zones : forall i A B, In (i, (A, B)) (s_levels s) -> defined A /\ exists b, B = Some b /\ b <> 0 }.

(** a measurement whose numbers are numbers *)
Definition real_sensor (d : sensor RX) : Prop :=
  s_type d = LOCATION -> defined (vx (s_val d)) /\ defined (vy (s_val d)) /\ defined (vz (s_val d)).
Definition real_measurement (m : measurement RX) : Prop :=
  match st_data m with
  | MRadio r => real_radio r
  | MSensor d => real_sensor d
  | MNmea _ => True
  end.

(** latitude, longitude and radius of the output are numbers, the radius not negative *)
Definition real_fix (o : noutput RX) : Prop :=
  defined (o_lat o) /\ defined (o_lon o) /\ exists r, o_r o = Some (Some r) /\ 0 <= r.

(** every level has the bounding box with these opposite corners (latitude and
    longitude), which excludes the poles and is at most half the globe wide *)
Definition same_box (gs : list (geolevel RX)) (la1 lo1 la2 lo2 : R) : Prop :=
  (forall g, In g gs -> real_box (gl_box g) la1 lo1 la2 lo2) /\
  -90 < la1 < 90 /\ -90 < la2 < 90 /\ -180 < lo1 <= 180 /\ -180 < lo2 <= 180 /\ Rabs (lo1 - lo2) <= 180.
(** the place shown lies in that box *)
Definition on_the_map (la1 lo1 la2 lo2 : R) (o : noutput RX) : Prop :=
  exists la lo, o_lat o = Some la /\ o_lon o = Some lo /\
    Rmin la1 la2 <= la <= Rmax la1 la2 /\ Rmin lo1 lo2 <= lo <= Rmax lo1 lo2.
