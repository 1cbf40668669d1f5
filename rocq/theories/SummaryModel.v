(** Model of DataLoader::GetSummaryString and GetProgress (Src/Recorder/DataLoader.cpp:148-150, 214-238). *)
From Coq Require Import NArith ZArith List Ascii String.
From Verif Require Import CrcModel RecorderModel LoaderModel TextModel.
Import ListNotations.
Open Scope N_scope.

(** printf "%x" *)
Definition hex_digit (d : N) : ascii := ascii_of_N (if d <? 10 then 48 + d else 87 + d).
(** printf (library): the digits of %x; [fuel] at least the number of bits *)
Fixpoint hexa (fuel : nat) (n : N) : text :=
  match fuel with
  | O => [hex_digit (n mod 16)]
  | S k => if n <? 16 then [hex_digit n] else hexa k (n / 16) ++ [hex_digit (n mod 16)]
  end.
(** printf (library): %x *)
Definition hexadecimal (n : N) : text := hexa (N.size_nat n) n.
(** printf "%.02llu": at least two digits *)
Definition two_digits (n : N) : text := if n <? 10 then digit 0 :: decimal n else decimal n.

(** value of the bit pattern of a float *)
Definition f32_num (bits : N) : TextModel.num :=
  let s := N.testbit bits 31 in
  let e := (bits / 2^23) mod 256 in
  let f := bits mod 2^23 in
  if e =? 255 then (if f =? 0 then Inf s else NaN s)
  else
    let m := if e =? 0 then f else 2^23 + f in
    let x := if e =? 0 then 1 else e in
    if x <? 150 then Fin s m (Pos.pow 2 (N.succ_pos (149 - x))) else Fin s (m * 2^(x - 150)) 1.

(** the std::map in the order of its keys *)
Fixpoint put {A} (k : N) (v : A) (m : list (N * A)) : list (N * A) :=
  match m with
  | [] => [(k, v)]
  | p :: r => if k <? fst p then (k, v) :: m else p :: put k v r
  end.
(** std::map (library): the entries in the order of their keys *)
Definition in_order {A} (m : list (N * A)) : list (N * A) := fold_right (fun p l => put (fst p) (snd p) l) [] m.

(** bytes of a name as characters *)
Definition chars_of (l : list N) : text := map ascii_of_N l.
(** the character of backslash t *)
Definition tab : ascii := "009"%char.

(** DataLoader.cpp:228-229 "\t%16s %10x %8llu %8d\n"; sub_data_cnt is unsigned and printed as an int *)
Definition set_line (p : N * dataset) : text :=
  [tab] ++ pad 16 (chars_of (d_name (snd p))) ++ str " " ++ pad 10 (hexadecimal (fst p)) ++ str " " ++
  pad 8 (decimal (N.of_nat (List.length (d_time (snd p))))) ++ str " " ++ pad 8 (print_int (signed 4 (d_cnt (snd p)))) ++ [newline].
(** the texts of DataLoader.cpp:22, 51, 64, 162, 194; [filename] is that of the last LoadFile *)
Definition error_text (filename : text) (e : errstr) : text :=
  match e with
  | S_nofile => str "No such file " ++ filename
  | S_not_configured id => str "current id is not configured:" ++ decimal id
  | S_crc => str "CRC check failed"
  | S_header_damaged => str "file header was damaged"
  | S_endmark => str "Header endmark not found"
  end.

(** DataLoader.cpp:215: char buff[4096]; sprintf behind what is there writes the text and a NUL.  [None]: it writes behind
    the end of the array (undefined behaviour) *)
Definition print_to (buff : option text) (t : text) : option text :=
  match buff with
  | Some b => if N.of_nat (List.length b) + N.of_nat (List.length t) + 1 <=? 4096 then Some (b ++ t) else None
  | None => None
  end.

(** DataLoader.cpp:214-238.  The texts contain no NUL, so that std::string{buff} is all that was printed.
    header_size is not initialised before the first successful LoadFile; the model prints 0 then. *)
Definition summary (filename : text) (st : loader) : option text :=
  let b0 := print_to (Some []) ([newline] ++ str "Header size " ++ decimal (l_header_size st) ++ [tab] ++ str "Recorder version:" ++
                                print_fixed 2 (f32_num (l_version st)) ++ str " " ++ [newline]) in
  let b1 := print_to b0 (str "Valid dataset(" ++ two_digits (N.of_nat (List.length (l_data st))) ++ str ") incuding:" ++ [newline]) in
  let b2 := print_to b1 ([tab] ++ pad 16 (str "dataset") ++ str " " ++ pad 10 (str "ID") ++ str " " ++ pad 8 (str "size") ++ str " " ++
                         pad 8 (str "subsets") ++ [newline]) in
  let b3 := fold_left (fun b p => print_to b (set_line p)) (in_order (l_data st)) b2 in
  match l_strs st with
  | [] => b3
  | _ => fold_left (fun b e => print_to b (error_text filename e ++ [newline])) (l_strs st) (print_to b3 (str "Errors:" ++ [newline]))
  end.

(** DataLoader.cpp:148-150 GetProgress, in uint64_t; [None]: division by zero.
    [len]: file_length, the size of the last file that could be opened, 0 before *)
Definition get_progress (len : N) (st : loader) : option Z :=
  if len =? 0 then None else Some (Z.of_N (100 * (l_file_offset st + 1) / len)).
