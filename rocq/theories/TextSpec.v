(** What a reader makes of a text: lines, words, comma-separated cells, decimal numbers.  Independent of how they are printed. *)
From Coq Require Import List NArith ZArith QArith Qabs Ascii String Bool.
Import ListNotations.
Open Scope N_scope.

Definition chars := list ascii.
Definition one (s : string) : ascii := match s with String c _ => c | _ => "000"%char end.

(** pieces between separators: always one more than there are separators *)
Fixpoint pieces (sep : ascii) (t : chars) : list chars :=
  match t with
  | [] => [[]]
  | c :: r =>
    if Ascii.eqb c sep then [] :: pieces sep r
    else match pieces sep r with p :: ps => (c :: p) :: ps | [] => [[c]] end
  end.

(** every line ends with a line feed; what follows the last one is no line *)
Definition text_lines (t : chars) : list chars := removelast (pieces "010"%char t).
(** words are the non-empty pieces between blanks *)
Definition text_words (t : chars) : list chars :=
  filter (fun w => match w with [] => false | _ => true end) (pieces " "%char t).
(** cells of a line of comma-separated values, each ended by a comma *)
Definition csv_cells (t : chars) : list chars := removelast (pieces ","%char t).

Definition digit_value (c : ascii) : option N :=
  let n := N_of_ascii c in if (48 <=? n) && (n <=? 57) then Some (n - 48) else None.

(** the digits at the front: value (continuing from [acc]), how many, what follows *)
Fixpoint take_digits (acc : N) (cnt : nat) (t : chars) : N * nat * chars :=
  match t with
  | c :: r => match digit_value c with
              | Some d => take_digits (10 * acc + d) (S cnt) r
              | None => (acc, cnt, t)
              end
  | [] => (acc, cnt, t)
  end.

Definition take_sign (t : chars) : bool * chars :=
  match t with
  | c :: r => if Ascii.eqb c "-"%char then (true, r) else if Ascii.eqb c "+"%char then (false, r) else (false, t)
  | [] => (false, t)
  end.

Definition pow10 (e : Z) : Q := Qpower (10 # 1) e.

(** the exponent part, or nothing *)
Definition read_exponent (t : chars) : option Z :=
  match t with
  | [] => Some 0%Z
  | c :: r =>
    if Ascii.eqb c "e"%char then
      let '(neg, r1) := take_sign r in
      match take_digits 0 0 r1 with
      | (v, S _, []) => Some (if neg then (- Z.of_N v)%Z else Z.of_N v)
      | _ => None
      end
    else None
  end.

(** [-]digits[.digits][e[+-]digits] as a rational number *)
Definition read_number (t : chars) : option Q :=
  let '(neg, t1) := take_sign t in
  match take_digits 0 0 t1 with
  | (_, O, _) => None
  | (i, S _, t2) =>
    let '(m, k, t3) :=
      match t2 with
      | c :: r => if Ascii.eqb c "."%char then take_digits i 0 r else (i, O, t2)
      | [] => (i, O, t2)
      end in
    match read_exponent t3 with
    | Some e => Some (Qmult (if neg then Qopp (inject_Z (Z.of_N m)) else inject_Z (Z.of_N m)) (pow10 (e - Z.of_nat k)))
    | None => None
    end
  end.

Fixpoint all_some {A} (l : list (option A)) : option (list A) :=
  match l with
  | [] => Some []
  | Some x :: r => match all_some r with Some xs => Some (x :: xs) | None => None end
  | None :: _ => None
  end.

(** the numbers of a line of words *)
Definition numbers (line : chars) : option (list Q) := all_some (map read_number (text_words line)).
(** the numbers of a line of cells *)
Definition csv_numbers (line : chars) : option (list Q) := all_some (map read_number (csv_cells line)).

(** [y] is [x] to [k] decimals *)
Definition decimals (k : Z) (x y : Q) : Prop := (Qabs (y - x) <= (1 # 2) * pow10 (- k))%Q.
(** [y] is [x] to six significant digits *)
Definition six_digits (x y : Q) : Prop := (Qabs (y - x) <= (5 # 1000000) * Qabs x)%Q.

(** the order of names in a directory listing: by characters *)
Fixpoint name_order (a b : chars) : comparison :=
  match a, b with
  | [], [] => Eq
  | [], _ => Lt
  | _, [] => Gt
  | x :: a', y :: b' => match N_of_ascii x ?= N_of_ascii y with Eq => name_order a' b' | c => c end
  end.

(** a calendar date and time of day: month 1 to 12 *)
Record moment := { m_year : N; m_month : N; m_day : N; m_hour : N; m_minute : N; m_second : N }.
Definition proper (m : moment) : Prop :=
  1900 <= m_year m <= 9999 /\ 1 <= m_month m <= 12 /\ 1 <= m_day m <= 31 /\
  m_hour m <= 23 /\ m_minute m <= 59 /\ m_second m <= 60.

Definition then_ (c d : comparison) : comparison := match c with Eq => d | _ => c end.
Definition time_order (a b : moment) : comparison :=
  then_ (m_year a ?= m_year b) (then_ (m_month a ?= m_month b) (then_ (m_day a ?= m_day b)
  (then_ (m_hour a ?= m_hour b) (then_ (m_minute a ?= m_minute b) (m_second a ?= m_second b))))).

(** the digits behind the last point but one: [prefix].YYYYMMDD_HHMMSS.rcd *)
Definition stamp (prefix name : chars) : chars := skipn (List.length prefix + 1) name.
Definition number_at (from len : nat) (t : chars) : N := fst (fst (take_digits 0 0 (firstn len (skipn from t)))).
Definition stamp_date (s : chars) : N * N * N := (number_at 0 4 s, number_at 4 2 s, number_at 6 2 s).
Definition stamp_time (s : chars) : N * N * N := (number_at 9 2 s, number_at 11 2 s, number_at 13 2 s).
