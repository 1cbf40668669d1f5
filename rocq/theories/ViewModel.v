(** Model of the scripts that show a result file: Tools/show_sensors.py and Tools/show_nav.py. What is drawn is given as the points of
    each curve; titles, colours and the window are left out, as are the printed counts. Numbers in a file are rational numbers. *)
From Coq Require Import List NArith ZArith QArith Ascii String Bool.
From Verif Require Import TextModel TextSpec.
Import ListNotations.
Open Scope list_scope.

(** numpy.loadtxt (library code, as documented): a table has two dimensions, a file with less than two lines of numbers gives
    an array of one dimension; [None]: ValueError, for a word that is no number or lines of different lengths *)
Inductive loaded := OneDimension (row : list Q) | Table (rows : list (list Q)).
(** numpy.loadtxt: a line without words is skipped *)
Definition blank (l : text) : bool := match text_words l with [] => true | _ => false end.
(** numpy.loadtxt: all lines have as many numbers as the first *)
Definition even (rows : list (list Q)) : bool :=
  match rows with [] => true | r :: _ => forallb (fun r' => Nat.eqb (List.length r') (List.length r)) rows end.
(** numpy.loadtxt, Tools/show_sensors.py:22 and Tools/show_nav.py:12, 36-39 *)
Definition loadtxt (t : text) : option loaded :=
  match all_some (map numbers (filter (fun l => negb (blank l)) (pieces newline t))) with
  | None => None
  | Some rows => if even rows then Some (match rows with [] => OneDimension [] | [r] => OneDimension r | _ => Table rows end) else None
  end.

(** numpy: data[:, k] of a table; [None]: IndexError *)
Definition column (k : nat) (rows : list (list Q)) : option (list Q) := all_some (map (fun r => nth_error r k) rows).
(** numpy: data[:, a:b] of a table; columns that do not exist are left out *)
Definition slice (a b : nat) (rows : list (list Q)) : list (list Q) := map (fun r => firstn (b - a) (skipn a r)) rows.

(** Python int(x): cuts off the decimals *)
Definition to_int (q : Q) : Z := Z.quot (Qnum q) (Zpos (Qden q)).
(** Tools/show_sensors.py:23-30 and 59-64: the masks of sensor_idx with the height at which each is drawn *)
Definition drawn : list (Z * Z) := [(1, 1); (2, 2); (4, 3); (8, 4); (16, 5); (128, 6)]%Z.
(** Tools/show_sensors.py:37-49 and 59-64: the points of one curve, time and height *)
Definition points (mask height : Z) (times : list Q) (bits : list Q) : list (Q * Z) :=
  map (fun p => (fst p, height)) (filter (fun p => (0 <? Z.land (to_int (snd p)) mask)%Z) (combine times bits)).
(** Tools/show_sensors.py:20-67 show_sensors; [None]: an exception, and nothing is shown *)
Definition show_sensors (t : text) : option (list (list (Q * Z))) :=
  match loadtxt t with
  | Some (Table rows) =>
    match column 24 rows, column 1 rows with
    | Some bits, Some times => Some (map (fun m => points (fst m) (snd m) times bits) drawn)
    | _, _ => None
    end
  | _ => None
  end.

(** Tools/show_nav.py:9-32 showBias: times, gyroscope biases, accelerometer biases, scale factor of the odometer; the window is
    opened at the end; [None]: an exception, and nothing is shown *)
Definition show_bias (t : text) : option (list Q * list (list Q) * list (list Q) * list Q) :=
  match loadtxt t with
  | Some (Table rows) =>
    match column 1 rows, column 19 rows with
    | Some times, Some odo => Some (times, slice 11 14 rows, slice 14 17 rows, odo)
    | _, _ => None
    end
  | _ => None
  end.

(** Tools/show_nav.py:41-42: one curve, the points (column 1, column 10) *)
Definition curve (l : option loaded) : option (list (Q * Q)) :=
  match l with
  | Some (Table rows) =>
    match column 1 rows, column 10 rows with Some x, Some y => Some (combine x y) | _, _ => None end
  | _ => None
  end.
(** Tools/show_nav.py:35-44 nav_compare *)
Definition nav_compare (t1 t2 : text) : option (list (Q * Q) * list (Q * Q)) :=
  match curve (loadtxt t1), curve (loadtxt t2) with Some a, Some b => Some (a, b) | _, _ => None end.
