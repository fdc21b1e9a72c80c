(** The classes of standalone_algorithms/trilateteration/src/beacon.{h,cpp} with
    all their members; line numbers refer to beacon.cpp.  Strings may contain
    NUL characters: c_str and the char* arguments end at the first. *)
From Coq Require Import Ascii.
From Verif Require Export Num Base.
Set Implicit Arguments.

(** what a char* to the text of a string shows, and strcmp *)
Fixpoint cstr (s : string) : string :=
  match s with
  | EmptyString => EmptyString
  | String c t => if Ascii.eqb c "000"%char then EmptyString else String c (cstr t)
  end.
Definition strcmp_eq (a b : string) : bool := String.eqb (cstr a) (cstr b).
(** conversion of unsigned int to int (modulo 2^32) *)
Definition to_int (u : Z) : Z := if (u <? 2 ^ 31)%Z then u else (u - 2 ^ 32)%Z.
Definition to_uint (z : Z) : Z := (z mod 2 ^ 32)%Z.

Section SaBeacon.
Context {F : Type} {NF : Num F}.
(** beacon.h:54-61, 83-85 *)
Record ibeacon := mkIB { ib_x : F; ib_y : F; ib_id : string; ib_name : string; ib_loc : string; ib_locid : Z;
  ib_uuid : string; ib_major : Z; ib_minor : Z }.
(** 14-20, 118-124 *)
Definition ib0 : ibeacon := mkIB f0 f0 "" "" "" 0 "" 0 0.
(** 36-39 setBeaconId, 42-54 fillData, 75-102 setters, 164-179; a location name is appended *)
Inductive bcall :=
  | SetId (s : string) | FillData (x y : F) (id name loc : string) | SetX (x : F) | SetY (y : F)
  | SetLocName (s : string) | SetLocId (z : Z) | SetUuid (s : string) | SetMajor (z : Z) | SetMinor (z : Z).
Definition ib_call (b : ibeacon) (c : bcall) : ibeacon :=
  let '(mkIB x y id nm loc lid u ma mi) := b in
  match c with
  | SetId s => mkIB x y s nm loc lid u ma mi
  | FillData x' y' id' nm' loc' => mkIB x' y' id' nm' loc' lid u ma mi
  | SetX x' => mkIB x' y id nm loc lid u ma mi
  | SetY y' => mkIB x y' id nm loc lid u ma mi
  | SetLocName s => mkIB x y id nm (loc ++ cstr s) lid u ma mi
  | SetLocId z => mkIB x y id nm loc z u ma mi
  | SetUuid s => mkIB x y id nm loc lid (cstr s) ma mi
  | SetMajor z => mkIB x y id nm loc lid u (to_uint z) mi
  | SetMinor z => mkIB x y id nm loc lid u ma (to_uint z)
  end.
Definition ib_calls (b : ibeacon) (cs : list bcall) : ibeacon := fold_left ib_call cs b.
(** 57-72, 99-102, 139-161: everything that can be read *)
Record reading := mkRd { rd_x : F; rd_y : F; rd_id : string; rd_locid : Z; rd_uuid : string; rd_major : Z; rd_minor : Z }.
Definition ib_read (b : ibeacon) : reading :=
  mkRd (ib_x b) (ib_y b) (cstr (ib_id b)) (ib_locid b) (cstr (ib_uuid b)) (to_int (ib_major b)) (to_int (ib_minor b)).
(** 105-113 operator==, operator!= *)
Definition ib_eq (a b : ibeacon) : bool := strcmp_eq (ib_id a) (ib_id b).
Definition ib_ne (a b : ibeacon) : bool := negb (ib_eq a b).
End SaBeacon.
Arguments ibeacon : clear implicits.
Arguments bcall : clear implicits.
Arguments reading : clear implicits.
