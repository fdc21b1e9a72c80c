(** Vocabulary of the whole-client accuracy property (C87). *)
From Coq Require Import Reals.
From Verif Require Import Base NumReal LevelModel Client Spec_Preproc Spec_Post.
Set Implicit Arguments.
Local Open Scope R_scope.

(** an axis-parallel rectangle of a level's local plane *)
Record rect := mkRect { rx0 : R; ry0 : R; rx1 : R; ry1 : R }.
Definition in_rect (k : rect) (x y : R) : Prop := rx0 k <= x <= rx1 k /\ ry0 k <= y <= ry1 k.
Definition spot (x y : R) : rect := mkRect x y x y.
Definition one_spot (k : rect) : Prop := rx0 k = rx1 k /\ ry0 k = ry1 k.

(** the rectangle lies on the map of the level *)
Definition on_map (l : level RX) (k : rect) : Prop :=
  exists x0 y0 x1 y1, real_box (l_box l) x0 y0 x1 y1 /\
    x0 <= rx0 k /\ rx0 k <= rx1 k /\ rx1 k <= x1 /\ y0 <= ry0 k /\ ry0 k <= ry1 k /\ ry1 k <= y1.

(** of the transmitters the map knows, the measurement can come only from one
    of level [l] inside [k]; it is no GNSS position *)
Definition hears_only (col : collector RX) (l : level RX) (k : rect) (m : measurement RX) : Prop :=
  match st_data m with
  | MRadio r => forall l' t, In l' (col_levels col) -> In (r_id r, t) (l_txs l') ->
      l' = l /\ exists x y, zx (t_pt t) = Some x /\ zy (t_pt t) = Some y /\ in_rect k x y
  | MSensor d => s_type d <> LOCATION
  | MNmea _ => True
  end.

(** whole centimetres, rounded down *)
Definition cm (x : R) : R := IZR (Int_part (x * 100)) / 100.
(** the output is a fix on level [l], in the rectangle with its corners rounded
    to centimetres *)
Definition fix_in (l : level RX) (k : rect) (o : noutput RX) : Prop :=
  o_level o = l_id l /\ exists x y : R,
    mkGeo (o_lat o) (o_lon o) = local_to_gps (mkXY (Some x) (Some y)) (l_bind l) /\
    cm (rx0 k) <= x <= cm (rx1 k) /\ cm (ry0 k) <= y <= cm (ry1 k).

(** plain settings under which a received signal suffices for a fix *)
Record plain (s : settings RX) : Prop := mkPlain {
  pn_stops : s_stops s = false; pn_closest : s_closest s = false; pn_baro : s_baro s = false;
  pn_power : s_txpower s = false; pn_rssi : s_mtype s = RSSI; pn_unknown : s_unknown s = false;
  pn_cutoff : exists c, s_cutoff s = Some c /\ -1000 <= c;
  pn_nosignal : (0 < s_nosignal s)%Z; pn_noaction : (0 < s_noaction s)%Z }.
(** the client keeps the signal *)
Definition signal (s : settings RX) (col : collector RX) (m : measurement RX) : Prop :=
  exists r, st_data m = MRadio r /\ accepted_radio s col r.
