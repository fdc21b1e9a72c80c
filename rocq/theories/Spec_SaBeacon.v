(** Specification of the beacon classes: every attribute is what was given last. *)
From Coq Require Import Ascii.
From Verif Require Import SaBeacon.
Set Implicit Arguments.

(** the last of a list of values that is given, or the initial one *)
Definition last_given {A B : Type} (f : A -> option B) (d : B) (l : list A) : B :=
  match find (fun a => match f a with Some _ => true | None => false end) (rev l) with
  | Some a => match f a with Some b => b | None => d end
  | None => d
  end.
Section Spec.
Context {F : Type}.
Definition gives_x (c : bcall F) : option F := match c with SetX x => Some x | FillData x _ _ _ _ => Some x | _ => None end.
Definition gives_y (c : bcall F) : option F := match c with SetY y => Some y | FillData _ y _ _ _ => Some y | _ => None end.
Definition gives_id (c : bcall F) : option string := match c with SetId s => Some s | FillData _ _ s _ _ => Some s | _ => None end.
Definition gives_locid (c : bcall F) : option Z := match c with SetLocId z => Some z | _ => None end.
Definition gives_uuid (c : bcall F) : option string := match c with SetUuid s => Some s | _ => None end.
Definition gives_major (c : bcall F) : option Z := match c with SetMajor z => Some z | _ => None end.
Definition gives_minor (c : bcall F) : option Z := match c with SetMinor z => Some z | _ => None end.
(** calls about names only *)
Definition names_only (c : bcall F) : Prop := match c with SetLocName _ => True | _ => False end.
End Spec.
(** the text before the first NUL *)
Definition shown (s t : string) : Prop :=
  (forall n, String.get n t <> Some "000"%char) /\
  (s = t \/ exists r, s = (t ++ String "000"%char r)%string).
(** the int with the same residue *)
Definition as_int (z i : Z) : Prop := (- 2 ^ 31 <= i < 2 ^ 31)%Z /\ exists k, (z = i + k * 2 ^ 32)%Z.
