(** The remaining planar geometry.  Models src/geometry.cpp:54-61; the rest of
    that file is in Geo.v. *)
From Verif Require Export Geo.
Set Implicit Arguments.

Section Ray.
Context {F : Type} {NF : Num F}.
(** geometry.cpp:54-61 GetArea(LocationPoint, LocationPoint, LocationPoint) *)
Definition get_area_lp (a b c : string * XY F) : F :=
  if negb (String.eqb (fst a) (fst b)) || negb (String.eqb (fst a) (fst c)) then fnan
  else get_area (px (snd a)) (py (snd a)) (px (snd b)) (py (snd b)) (px (snd c)) (py (snd c)).
End Ray.
