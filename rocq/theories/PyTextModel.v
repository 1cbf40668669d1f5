(** Model of the text of the Python tools: write2txt and NavData.__str__ (Tools/InsCore.py:420-425, 458-476), and the
    row that NavData is made from (Tools/InsCore.py:394-418). Values are as they are passed to the formatting operator:
    degrees, metres, metres per second, degrees per hour, milligal. *)
From Coq Require Import List NArith ZArith QArith Qreals Reals Ascii String Bool.
From Verif Require Import RealMath EarthModel ConvertModel SmoothModel InsModel PyInsModel TextModel.
Import ListNotations.
Open Scope list_scope.

(** the values of a NavData in the units of the text; the week is printed with %d, which cuts off decimals: it is an integer here *)
Record pytext := PyText { p_week : Z; p_time : num; p_lat : num; p_lon : num; p_h : num;
  p_vn : num * num * num; p_att : num * num * num; p_gb : num * num * num; p_ab : num * num * num }.

(** Python "%w.kf": k decimals, blanks in front up to w characters *)
Definition percent_f (w k : nat) (x : num) : text := pad w (print_fixed k x).
(** InsCore.py:458-476: three values with the same format *)
Definition percent_3 (before : text) (w k : nat) (v : num * num * num) : text :=
  let '(a, b, c) := v in
  before ++ percent_f w k a ++ str " " ++ before ++ percent_f w k b ++ str " " ++ before ++ percent_f w k c ++ str " ".
(** InsCore.py:458-476 write2txt without the line feed *)
Definition py_line (p : pytext) : text :=
  pad 5 (print_int (p_week p)) ++ percent_f 13 5 (p_time p) ++ str " " ++
  percent_f 20 15 (p_lat p) ++ str " " ++ percent_f 20 15 (p_lon p) ++ str " " ++ percent_f 16 10 (p_h p) ++ str " " ++
  percent_3 [] 20 10 (p_vn p) ++ percent_3 [] 12 6 (p_att p) ++
  percent_3 (str " ") 10 0 (p_gb p) ++ percent_3 (str " ") 10 0 (p_ab p).
(** InsCore.py:458-476 write2txt, one call after the other *)
Definition py_file (l : list pytext) : text := List.concat (map (fun p => py_line p ++ [newline]) l).

(** InsCore.py:420-425 __str__ *)
Definition py_str (p : pytext) : text :=
  let '(v1, v2, v3) := p_vn p in let '(a1, a2, a3) := p_att p in
  join ","%char [print_int (p_week p); print_fixed 4 (p_time p); print_fixed 8 (p_lat p); print_fixed 8 (p_lon p); print_fixed 4 (p_h p);
    print_fixed 4 v1; print_fixed 4 v2; print_fixed 4 v3; print_fixed 4 a1; print_fixed 4 a2; print_fixed 4 a3].

(** InsCore.py:394-418 NavData(row): columns 0 to 10; [None]: IndexError *)
Definition py_of_row (row : list QArith_base.Q) : option pynav :=
  match row with
  | _ :: t :: lat :: lon :: h :: v1 :: v2 :: v3 :: a1 :: a2 :: a3 :: _ =>
    Some (y_nav (Q2R t) (Q2R lat) (Q2R lon) (Q2R h) (V (Q2R v1) (Q2R v2) (Q2R v3)) (V (Q2R a1) (Q2R a2) (Q2R a3)))
  | _ => None
  end.
