(** What a text file of the stand-alone programs says: lines, words and numbers
    as they are spelled.  Nothing here reads a text from left to right. *)
From Coq Require Import Ascii String ZArith List.
Import ListNotations.

Definition LF : ascii := "010". Definition CR : ascii := "013".
Definition ws_chars : list ascii := [" "; "009"; "010"; "011"; "012"; "013"]%char.
Definition numerals : list ascii := ["0"; "1"; "2"; "3"; "4"; "5"; "6"; "7"; "8"; "9"]%char.

Definition blank (w : list ascii) : Prop := Forall (fun c => In c ws_chars) w.
Definition word (w : list ascii) : Prop := w <> [] /\ Forall (fun c => ~ In c ws_chars) w.
(** the text goes on with one of the characters of [cs] *)
Definition goes_on (cs : list ascii) (r : list ascii) : Prop := exists c t, r = c :: t /\ In c cs.

(** ** Lines: each ends with a line feed, except that the last may end with the file *)
Definition file_of (ls : list (list ascii)) (s : list ascii) : Prop :=
  Forall (fun l => ~ In LF l) ls /\
  (s = concat (map (fun l => l ++ [LF]) ls) \/
   exists ls' l, ls = ls' ++ [l] /\ l <> [] /\ s = concat (map (fun l => l ++ [LF]) ls') ++ l).
(** the same file with the line ends of Windows *)
Definition crlf (s : list ascii) : list ascii := flat_map (fun c => if Ascii.eqb c LF then [CR; LF] else [c]) s.

(** ** Numbers *)
Definition figure (d : nat) : ascii := nth d numerals " "%char.
Definition figures (ds : list nat) : list ascii := map figure ds.
Fixpoint dval (ds : list nat) : Z :=
  match ds with [] => 0%Z | d :: t => (Z.of_nat d * 10 ^ Z.of_nat (length t) + dval t)%Z end.
Inductive sgn := NoSign | Plus | Minus.
Definition sign_text (s : sgn) : list ascii := match s with NoSign => [] | Plus => ["+"%char] | Minus => ["-"%char] end.
Definition is_minus (s : sgn) : bool := match s with Minus => true | _ => false end.
Definition with_sign (s : sgn) (z : Z) : Z := match s with Minus => (- z)%Z | _ => z end.

Record numeral := mkNumeral { n_sgn : sgn; n_int : list nat; n_frac : option (list nat); n_exp : option (bool * sgn * list nat) }.
Definition fraction (n : numeral) : list nat := match n_frac n with Some f => f | None => [] end.
Definition spelled (n : numeral) : list ascii :=
  sign_text (n_sgn n) ++ figures (n_int n)
  ++ match n_frac n with Some f => "."%char :: figures f | None => [] end
  ++ match n_exp n with Some (up, s, ds) => (if up then "E" else "e")%char :: sign_text s ++ figures ds | None => [] end.
Definition decimal (ds : list nat) : Prop := Forall (fun d => d < 10) ds.
Definition numeral_ok (n : numeral) : Prop :=
  decimal (n_int n) /\ decimal (fraction n) /\ n_int n ++ fraction n <> [] /\
  match n_exp n with Some (_, _, ds) => decimal ds /\ ds <> [] | None => True end.
(** the value is (-1)^minus * mantissa * 10^power *)
Definition mantissa (n : numeral) : Z := dval (n_int n ++ fraction n).
Definition power (n : numeral) : Z :=
  (match n_exp n with Some (_, s, ds) => with_sign s (dval ds) | None => 0 end - Z.of_nat (length (fraction n)))%Z.
(** a longer number cannot be read *)
Definition stops (n : numeral) (r : list ascii) : Prop :=
  ~ goes_on numerals r /\
  (n_exp n = None -> ~ goes_on ["e"; "E"]%char r) /\
  (n_exp n = None -> n_frac n = None -> ~ goes_on ["."]%char r).

(** ** What a text [s] starts with, [r] being what follows *)
Definition says_word (s : list ascii) (id : string) (r : list ascii) : Prop :=
  exists w l, s = w ++ l ++ r /\ blank w /\ word l /\ (r = [] \/ goes_on ws_chars r) /\ id = string_of_list_ascii l.
Definition says_int (bits : Z) (s : list ascii) (z : Z) (r : list ascii) : Prop :=
  exists w g ds, s = w ++ sign_text g ++ figures ds ++ r /\ blank w /\ decimal ds /\ ds <> [] /\
    ~ goes_on numerals r /\ z = with_sign g (dval ds) /\ (- 2 ^ (bits - 1) <= z < 2 ^ (bits - 1))%Z.
Section Says.
Context {F : Type} (strtod : bool -> Z -> Z -> option F).
Definition says_number (s : list ascii) (v : F) (r : list ascii) : Prop :=
  exists w n, s = w ++ spelled n ++ r /\ blank w /\ numeral_ok n /\ stops n r /\
    strtod (is_minus (n_sgn n)) (mantissa n) (power n) = Some v.

(** ** The three kinds of lines *)
Definition says_tx (s : list ascii) (q : string * F * F * string) : Prop :=
  let '(id, x, y, ty) := q in
  exists r1 r2 r3 r4, says_word s id r1 /\ says_number r1 x r2 /\ says_number r2 y r3 /\ says_word r3 ty r4.
Definition says_meas (s : list ascii) (q : Z * string * F * string) : Prop :=
  let '(ts, id, rssi, ty) := q in
  exists r1 r2 r3 r4, says_int 64 s ts r1 /\ says_word r1 id r2 /\ says_number r2 rssi r3 /\ says_word r3 ty r4.
Definition says_sample (s : list ascii) (ts : Z) (x y z : F) : Prop :=
  exists r1 r2 r3 r4, says_int 64 s ts r1 /\ says_number r1 x r2 /\ says_number r2 y r3 /\ says_number r3 z r4.
End Says.

(** ** What is read of the lines: those before the first that says nothing *)
Definition reads {A : Type} (says : list ascii -> A -> Prop) (ls : list (list ascii)) (qs : list A) : Prop :=
  exists good rest, ls = good ++ rest /\ Forall2 says good qs /\
    (rest = [] \/ exists l t, rest = l :: t /\ forall q, ~ says l q).
