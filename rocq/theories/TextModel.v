(** Model of the text the programs write: numbers as fmt::format and std::ostream print them,
    result lines (App/AppCommon/FileIO.cpp:52-71, 440-464), CSV files (Src/Recorder/DataLoader.cpp:255-277)
    and the name of a recording (Src/Recorder/Recorder.cpp:124-143). *)
From Coq Require Import List NArith ZArith QArith Ascii String Bool.
Import ListNotations.
Open Scope N_scope.

(** a C++ string as its characters *)
Definition text := list ascii.
(** a string literal *)
Definition str (s : string) : text := list_ascii_of_string s.

(** A floating-point value (IEEE 754): a finite one is sign and magnitude [n / d]
    (every finite double or float is such a fraction; denominators that are no powers of two are covered too). *)
Inductive num := Fin (neg : bool) (n : N) (d : positive) | Inf (neg : bool) | NaN (neg : bool).

(** fmt, std::ostream (library): a decimal digit *)
Definition digit (d : N) : ascii := ascii_of_N (48 + d).

(** decimal digits of a natural number without leading zeros ("0" for 0); [fuel] at least the number of bits *)
Fixpoint dec (fuel : nat) (n : N) : text :=
  match fuel with
  | O => [digit (n mod 10)]
  | S k => if n <? 10 then [digit n] else dec k (n / 10) ++ [digit (n mod 10)]
  end.
(** fmt "{:d}", std::ostream: a natural number *)
Definition decimal (n : N) : text := dec (N.size_nat n) n.

(** exactly [k] digits (leading zeros, higher digits cut off) *)
Fixpoint fixed_digits (k : nat) (n : N) : text :=
  match k with
  | O => []
  | S k' => fixed_digits k' (n / 10) ++ [digit (n mod 10)]
  end.

(** n / d to the nearest integer, ties to even *)
Definition round_even (n : N) (d : positive) : N :=
  let q := n / Npos d in let r := n mod Npos d in
  match 2 * r ?= Npos d with
  | Lt => q
  | Gt => q + 1
  | Eq => if N.even q then q else q + 1
  end.

(** fmt, std::ostream: the sign of a number *)
Definition sign (neg : bool) : text := if neg then str "-" else [].

(** fmt "{:.kf}" *)
Definition print_fixed (k : nat) (x : num) : text :=
  match x with
  | Fin s n d =>
    let m := round_even (n * 10 ^ N.of_nat k) d in
    sign s ++ decimal (m / 10 ^ N.of_nat k) ++ (match k with O => [] | _ => str "." ++ fixed_digits k m end)
  | Inf s => sign s ++ str "inf"
  | NaN s => sign s ++ str "nan"
  end.

(** fmt "{:d}" *)
Definition print_int (z : Z) : text := sign (z <? 0)%Z ++ decimal (Z.abs_N z).

(** fmt field width: numbers are aligned to the right *)
Definition pad (w : nat) (t : text) : text := repeat " "%char (w - List.length t) ++ t.

(** * A result, as far as it is printed (RgioeDataType.h:113-131) *)
Record result := {
  r_week : Z; r_gpst : num; r_lat : num; r_lon : num; r_height : num;
  r_vn : num * num * num; r_atti : num * num * num;
  r_mode : N; r_sensors : N }.

(** texts with a separator between them *)
Definition join (sep : ascii) (l : list text) : text :=
  match l with [] => [] | x :: r => x ++ List.concat (map (fun y => sep :: y) r) end.

(** FileIO.cpp:52-71: "{:4d} {:2f} {:.12f} {:.12f} {:.4f} {:10.6f} ... {:d} {:d}"; "{:2f}" has width 2 and six decimals *)
Definition print_result (r : result) : text :=
  let '(v1, v2, v3) := r_vn r in let '(a1, a2, a3) := r_atti r in
  join " "%char
    [pad 4 (print_int (r_week r)); pad 2 (print_fixed 6 (r_gpst r));
     print_fixed 12 (r_lat r); print_fixed 12 (r_lon r); print_fixed 4 (r_height r);
     pad 10 (print_fixed 6 v1); pad 10 (print_fixed 6 v2); pad 10 (print_fixed 6 v3);
     pad 10 (print_fixed 6 a1); pad 10 (print_fixed 6 a2); pad 10 (print_fixed 6 a3);
     print_int (Z.of_N (r_mode r)); print_int (Z.of_N (r_sensors r))].

(** the character of backslash n *)
Definition newline : ascii := "010"%char.

(** FileIO.h:44-48: NavBinary = 0, NavAscii = 1, NavDoubleMatrix = 1; the number in the configuration file is cast to
    the enumeration without a check.  [raw]: the bytes of the structure in memory. *)
Section Writers.
Variable raw : result -> text.
(** the 21 doubles of NavDoubleList (FileIO.h:49-59), built by ConvertNavToDouble (FileIO.cpp:152-171) *)
Variable doubles : result -> text.

(** PvaWriter::Write, FileIO.cpp:450-461 *)
Definition pva_write (fmt : Z) (r : result) : text :=
  if (fmt =? 1)%Z then print_result r ++ [newline]
  else if (fmt =? 0)%Z then raw r
  else [].
(** FileIO.cpp:450-461 Write for one result after the other *)
Definition pva_file (fmt : Z) (rs : list result) : text := List.concat (map (pva_write fmt) rs).

(** NavWriter::th_write_nav, FileIO.cpp:186-194: what is written for one result taken from the queue; [kd] the
    printed scale factor.  The second test is on NavDoubleMatrix, whose value is that of NavAscii. *)
Definition nav_write (kd : text) (fmt : Z) (r : result) : text :=
  if (fmt =? 0)%Z then raw r
  else if (fmt =? 1)%Z then doubles r
  else print_result r ++ str " " ++ kd ++ [newline].
(** FileIO.cpp:172-196: the results in the order of the queue *)
Definition nav_file (kd : text) (fmt : Z) (rs : list result) : text := List.concat (map (nav_write kd fmt) rs).
End Writers.

(** * std::ostream << double with the default settings: six significant digits, "%g" *)
(** decimal exponent: the [e] with 10^e <= n/d < 10^(e+1), for n > 0 *)
Definition le10 (e : Z) (n : N) (d : positive) : bool :=
  match e with
  | Zneg p => Npos d <=? n * 10 ^ Npos p
  | _ => Npos d * 10 ^ Z.to_N e <=? n
  end.
(** largest [e <= start] with 10^e <= n/d, at most [fuel] steps down *)
Fixpoint search (fuel : nat) (e : Z) (n : N) (d : positive) : Z :=
  match fuel with
  | O => e
  | S k => if le10 e n d then e else search k (e - 1) n d
  end.
(** std::ostream (library): the decimal exponent of n/d *)
Definition exponent (n : N) (d : positive) : Z :=
  search (N.size_nat n + Pos.size_nat d) (Z.of_nat (N.size_nat n)) n d.

(** n/d * 10^k rounded to an integer *)
Definition scaled (k : Z) (n : N) (d : positive) : N :=
  match k with
  | Zneg p => round_even n (d * Z.to_pos (10 ^ Zpos p))
  | _ => round_even (n * 10 ^ Z.to_N k) d
  end.

(** six digits and the exponent after rounding (999999.5 becomes 1e6) *)
Definition significand (n : N) (d : positive) : N * Z :=
  let e := exponent n d in
  let m := scaled (5 - e) n d in
  if m =? 1000000 then (100000, (e + 1)%Z) else (m, e).

(** remove zeros at the end of a fraction, and the point if nothing is left *)
Fixpoint strip0 (rev : text) : text :=
  match rev with
  | c :: r => if Ascii.eqb c "0"%char then strip0 r else rev
  | [] => []
  end.
(** std::ostream (library): the fraction digits of a number, without zeros at the end *)
Definition fraction (digits : text) : text :=
  match strip0 (List.rev digits) with [] => [] | r => str "." ++ List.rev r end.

(** std::ostream (library) with the default format "%g", six digits *)
Definition print_g (x : num) : text :=
  match x with
  | Inf s => sign s ++ str "inf"
  | NaN s => sign s ++ str "nan"
  | Fin s 0 _ => sign s ++ str "0"
  | Fin s n d =>
    let '(m, e) := significand n d in
    sign s ++
    (if ((-4 <=? e) && (e <? 6))%Z then
       (** fixed notation with 5 - e decimals *)
       let k := Z.to_nat (5 - e) in
       decimal (m / 10 ^ N.of_nat k) ++ fraction (fixed_digits k m)
     else
       (** scientific notation: one digit, up to five decimals, the exponent with at least two digits *)
       decimal (m / 100000) ++ fraction (fixed_digits 5 m) ++ str "e" ++
       (if (e <? 0)%Z then str "-" else str "+") ++
       (if (Z.abs e <? 10)%Z then str "0" else []) ++ decimal (Z.abs_N e))
  end.

(** * Save2Csv, DataLoader.cpp:259-277.  [names]: subset_name; rows: times and columns.  An index outside a
    column is undefined ([None]). *)
Fixpoint cells (i : nat) (cols : list (list num)) : option text :=
  match cols with
  | [] => Some []
  | c :: rest =>
    match nth_error c i, cells i rest with
    | Some x, Some t => Some (print_g x ++ str "," ++ t)
    | _, _ => None
    end
  end.
(** DataLoader.cpp:266-275 the rows from row i on *)
Fixpoint csv_rows (i : nat) (times : list num) (cols : list (list num)) : option text :=
  match times with
  | [] => Some []
  | t :: rest =>
    match cells i cols, csv_rows (S i) rest cols with
    | Some a, Some b => Some (print_g t ++ str "," ++ a ++ [newline] ++ b)
    | _, _ => None
    end
  end.
(** DataLoader.cpp:259-265 the first line *)
Definition csv_header (names : list text) : text :=
  str "time," ++ List.concat (map (fun n => n ++ str ",") names) ++ [newline].
(** DataLoader.cpp:255-277 Save2Csv *)
Definition save2csv (names : list text) (times : list num) (cols : list (list num)) : option text :=
  match csv_rows 0 times cols with Some t => Some (csv_header names ++ t) | None => None end.

(** * Recorder::Initialize, Recorder.cpp:124-143: the file name.  [tm_mon] counts from 0, [tm_year] from 1900;
    "%04d" prints more digits for larger numbers. *)
Record tm := { tm_year : N; tm_mon : N; tm_mday : N; tm_hour : N; tm_min : N; tm_sec : N }.
(** printf (library): "%0wd" *)
Definition zero_pad (w : nat) (n : N) : text :=
  let t := decimal n in repeat "0"%char (w - List.length t) ++ t.
(** Recorder.cpp:124-143 the file name *)
Definition rcd_name (argv0 : option text) (s : tm) : text :=
  match argv0 with None => str "recorder" | Some a => a end ++
  str "." ++ zero_pad 4 (tm_year s + 1900) ++ zero_pad 2 (tm_mon s) ++ zero_pad 2 (tm_mday s) ++
  str "_" ++ zero_pad 2 (tm_hour s) ++ zero_pad 2 (tm_min s) ++ zero_pad 2 (tm_sec s) ++ str ".rcd".
(** char rcd_filename[128] (Recorder.h:127): sprintf writes the name and a zero byte *)
Definition rcd_name_fits (argv0 : option text) (s : tm) : bool := (List.length (rcd_name argv0 s) <? 128)%nat.

(** characters as a Coq string, for examples *)
Definition show (t : text) : string := string_of_list_ascii t.
