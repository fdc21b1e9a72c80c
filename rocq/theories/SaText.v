(** The text read by the programs of the stand-alone algorithms (below, paths are
    relative to standalone_algorithms):
    - position_estimation/examples/main.cpp:29-89;
    - pedometer/examples/main.cpp:8-30;
    - pedometer/tests/pedometer_test.cpp:20-48.
    std::getline and operator>> are those of libstdc++ in the "C" locale; a
    stream is the text that is left.  The conversion of a decimal to a double
    (strtod) is an argument. *)
From Verif Require Export SaPedTest.
From Coq Require Export Ascii.
Set Implicit Arguments.

Definition text := list ascii.

(** ** Characters *)
Definition code (c : ascii) : Z := Z.of_nat (nat_of_ascii c).
(** isspace *)
Definition is_space (c : ascii) : bool := ((code c =? 32) || (9 <=? code c) && (code c <=? 13))%Z.
Definition is_digit (c : ascii) : bool := ((48 <=? code c) && (code c <=? 57))%Z.
Definition is_char (n : Z) (c : ascii) : bool := (code c =? n)%Z.

(** ** std::getline until it fails: position_estimation/examples/main.cpp:38, 68 *)
Fixpoint lines (s : text) : list text :=
  match s with
  | [] => []
  | c :: t => if is_char 10 c then [] :: lines t
              else match lines t with [] => [[c]] | l :: r => (c :: l) :: r end
  end.

(** ** operator>> *)
(** the sentry *)
Fixpoint skip_ws (s : text) : text :=
  match s with c :: t => if is_space c then skip_ws t else s | [] => [] end.
Fixpoint span (p : ascii -> bool) (s : text) : text * text :=
  match s with
  | c :: t => if p c then let '(a, r) := span p t in (c :: a, r) else ([], s)
  | [] => ([], [])
  end.
(** for a std::string *)
Definition get_word (s : text) : option (string * text) :=
  match span (fun c => negb (is_space c)) (skip_ws s) with
  | ([], _) => None
  | (w, r) => Some (string_of_list_ascii w, r)
  end.

(** an optional sign; true for minus *)
Definition get_sign (s : text) : bool * text :=
  match s with
  | c :: t => if is_char 43 c then (false, t) else if is_char 45 c then (true, t) else (false, s)
  | [] => (false, [])
  end.
Definition digits_val (l : text) : Z := fold_left (fun a c => 10 * a + (code c - 48))%Z l 0%Z.
Definition signed (neg : bool) (z : Z) : Z := if neg then (- z)%Z else z.

(** for an integer (num_get::_M_extract_int, base 10): digits, if any, and what is left *)
Definition scan_int (s : text) : option (Z * text) :=
  let '(neg, s) := get_sign (skip_ws s) in
  match span is_digit s with
  | ([], _) => None
  | (ds, r) => Some (signed neg (digits_val ds), r)
  end.
Definition in_range (bits : Z) (z : Z) : bool := ((- 2 ^ (bits - 1) <=? z) && (z <? 2 ^ (bits - 1)))%Z.
(** a long long; failbit when it does not fit *)
Definition get_ll (s : text) : option (Z * text) :=
  match scan_int s with Some (z, r) => if in_range 64 z then Some (z, r) else None | None => None end.

(** the digits after a point, if there is one *)
Definition get_fraction (s : text) : text * text :=
  match s with c :: t => if is_char 46 c then span is_digit t else ([], s) | [] => ([], []) end.
(** for a double (num_get::_M_extract_float): sign, mantissa and power of ten,
    and what is left; None when what was accumulated is not a number *)
Definition scan_float (s : text) : option (bool * Z * Z * text) :=
  let '(neg, s) := get_sign (skip_ws s) in
  let '(ip, s) := span is_digit s in
  let '(fp, s) := get_fraction s in
  match ip ++ fp with
  | [] => None
  | m =>
      let e := (- Z.of_nat (List.length fp))%Z in
      match s with
      | c :: t =>
          if is_char 69 c || is_char 101 c then
            let '(en, t) := get_sign t in
            match span is_digit t with
            | ([], _) => None
            | (ds, r) => Some (neg, digits_val m, signed en (digits_val ds) + e, r)%Z
            end
          else Some (neg, digits_val m, e, s)
      | [] => Some (neg, digits_val m, e, [])
      end
  end.

(** strtod: [dv neg m e] is (-1)^neg m 10^e as a double, [None] when it is too
    large; [dmax neg] is what is then stored *)
Record conv (F : Type) := mkConv { dv : bool -> Z -> Z -> option F; dmax : bool -> F }.

Section Text.
Context {F : Type} (C : conv F).

Definition get_double (s : text) : option (F * text) :=
  match scan_float s with
  | Some (neg, m, e, r) => match dv C neg m e with Some v => Some (v, r) | None => None end
  | None => None
  end.

Local Notation "'let!' ( x , r ) := e 'in' f" := (match e with Some (x, r) => f | None => None end)
  (at level 200, x name, r name, f at level 200).

(** position_estimation/examples/main.cpp:40-43 *)
Definition tx_of_line (s : text) : option (string * F * F * string) :=
  let! (id, s) := get_word s in let! (x, s) := get_double s in let! (y, s) := get_double s in
  let! (ty, s) := get_word s in Some (id, x, y, ty).
(** 70-73 *)
Definition meas_of_line (s : text) : option (Z * string * F * string) :=
  let! (ts, s) := get_ll s in let! (id, s) := get_word s in let! (rssi, s) := get_double s in
  let! (ty, s) := get_word s in Some (ts, id, rssi, ty).
(** pedometer/examples/main.cpp:21-23, pedometer/tests/pedometer_test.cpp:40-41 *)
Definition sample_of_line (s : text) : option (Z * vec3 F) :=
  let! (ts, s) := get_ll s in let! (x, s) := get_double s in let! (y, s) := get_double s in
  let! (z, s) := get_double s in Some (ts, mkV x y z).
End Text.

Section Programs.
Context {F : Type} {NF : Num F} {SO : Sorter} (C : conv F).

(** pedometer/tests/pedometer_test.cpp:36: the number (int) and the length of the
    first line.  A number that does not fit an int is stored as the nearest
    one; a failed extraction stores 0 unless the stream was at its end *)
Definition truth_of_line (s : text) : Z * option F :=
  match scan_int s with
  | None => (0%Z, None)
  | Some (z, r) =>
      if in_range 32 z then
        (z, match skip_ws r with
            | [] => None
            | _ => match scan_float r with
                   | None => Some f0
                   | Some (neg, m, e, _) => match dv C neg m e with Some v => Some v | None => Some (dmax C neg) end
                   end
            end)
      else (Z.max (- 2 ^ 31) (Z.min (2 ^ 31 - 1) z), None)
  end.

(** position_estimation/examples/main.cpp: the transmitters, the measurements, the lines written *)
Definition tx_file (s : text) : list (option (string * F * F * string)) := map (tx_of_line C) (lines s).
Definition meas_file (s : text) : list (option (Z * string * F * string)) := map (meas_of_line C) (lines s).
Definition position_program (c : sapcfg) (txs meas : text) : res (list (sapos F)) :=
  position_main c (tx_file txs) (meas_file meas).
(** pedometer/examples/main.cpp *)
Definition sample_file (s : text) : list (option (Z * vec3 F)) := map (sample_of_line C) (lines s).
Definition pedometer_program (s : text) : res nat := pedometer_main (sample_file s).
(** pedometer/tests/pedometer_test.cpp *)
Definition test_file (s : text) : list (pline F) :=
  map (fun l => let '(n, len) := truth_of_line l in mkPline n len (sample_of_line C l)) (lines s).
Definition pedometer_test_program (s : text) : res (bool * bool) := ped_test (test_file s).
End Programs.
