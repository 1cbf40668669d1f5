(** What a summary of a recording is to say, line by line. *)
From Coq Require Import NArith ZArith QArith List Ascii String Sorted Permutation.
From Verif Require Import LoaderModel TextModel TextSpec.
Import ListNotations.
Open Scope N_scope.

(** value of hexadecimal digits *)
Definition hex_value (c : ascii) : option N :=
  let n := N_of_ascii c in
  if ((48 <=? n) && (n <=? 57))%bool then Some (n - 48)
  else if ((97 <=? n) && (n <=? 102))%bool then Some (n - 87) else None.
Fixpoint read_hex (acc : N) (t : chars) : option N :=
  match t with
  | [] => Some acc
  | c :: r => match hex_value c with Some d => read_hex (16 * acc + d) r | None => None end
  end.
(** a line that tells of one data set: name, identifier (hexadecimal), number of records, number of columns *)
Definition tells_of (p : N * dataset) (line : chars) : Prop :=
  exists rest name id size subs qs qc, line = "009"%char :: rest /\ text_words rest = [name; id; size; subs] /\
    name = map ascii_of_N (d_name (snd p)) /\ read_hex 0 id = Some (fst p) /\
    read_number size = Some qs /\ (qs == inject_Z (Z.of_nat (List.length (d_time (snd p)))))%Q /\
    read_number subs = Some qc /\ (qc == inject_Z (Z.of_N (d_cnt (snd p))))%Q.
(** the identifiers a user has given are told in ascending order, every data set once *)
Definition ascending (sets all : list (N * dataset)) : Prop :=
  Permutation sets all /\ StronglySorted (fun a b => fst a <= fst b) sets.
(** a name that can be told apart in a line *)
Definition readable_name (l : list N) : Prop := l <> [] /\ Forall (fun b => 32 < b < 127) l.
(** the complaint about one error *)
Definition complaint (filename : chars) (e : errstr) : chars :=
  match e with
  | S_nofile => str "No such file " ++ filename
  | S_not_configured id => str "current id is not configured:" ++ decimal id
  | S_crc => str "CRC check failed"
  | S_header_damaged => str "file header was damaged"
  | S_endmark => str "Header endmark not found"
  end.
