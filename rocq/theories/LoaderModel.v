(** Model of the record loader: Src/Recorder/DataLoader.cpp, DataLoader.h.

    Every read of the file buffer goes through [slice]; a read that is not
    entirely inside the buffer gives [OOB] (undefined behaviour in C++).
    The main loop is a step function; [run] iterates it with fuel, so a
    non-terminating loop is "no fuel suffices". *)
From Coq Require Import NArith ZArith List.
From Verif Require Import CrcModel RecorderModel.
Import ListNotations.
Open Scope N_scope.

(** result of a function that reads the buffer: a value, or a read outside the buffer *)
Inductive res (A : Type) := Ret (a : A) | OOB.
Arguments Ret {A} a. Arguments OOB {A}.
(** nothing is said about what happens behind a read outside the buffer *)
Definition bind {A B} (x : res A) (f : A -> res B) : res B :=
  match x with Ret a => f a | OOB => OOB end.
Notation "'do' x <- e ; f" := (bind e (fun x => f)) (at level 200, x name, e at level 100, f at level 200).

(** [n] bytes of the buffer from offset [off] *)
Definition slice (buf : list N) (off n : N) : res (list N) :=
  if off + n <=? N.of_nat (length buf)
  then Ret (firstn (N.to_nat n) (skipn (N.to_nat off) buf)) else OOB.

(** little-endian value of bytes *)
Fixpoint of_le (l : list N) : N :=
  match l with [] => 0 | b :: r => b + 256 * of_le r end.

(** [*(uint32_t* )(buf + off)] *)
Definition rd32 (buf : list N) (off : N) : res N := do l <- slice buf off 4 ; Ret (of_le l).

(** [crc32_checksum(buf + off, n)] with [n] a uint32_t. *)
Definition crc_range (buf : list N) (off n : N) : res N :=
  do l <- slice buf off n ;
  match crc32_table l with Some c => Ret c | None => OOB end.

(** What a column entry holds.  The loader casts every item to [float]
    (DataLoader.cpp:100-141): for integer items the cast value is again an
    integer ([f32_of_int], round to nearest even with 24 significant bits);
    for [float] items the bit pattern is kept; for [double] items the model keeps
    the bit pattern of the double whose [float] rounding is stored (the
    rounding itself is not modelled). *)
Inductive value := VInt (z : Z) | VF32 (bits : N) | VF64 (bits : N).

(** cast of an integer to float, round to nearest even (DataLoader.cpp:100-141) *)
Definition f32_of_int (z : Z) : Z :=
  let a := Z.abs z in
  if (a <? 2^24)%Z then z else
  let e := (Z.log2 a - 23)%Z in
  let q := (a / 2^e)%Z in
  let r := (a mod 2^e)%Z in
  let half := (2^(e-1))%Z in
  let q' := if (r <? half)%Z then q else if (half <? r)%Z then (q + 1)%Z
            else if Z.even q then q else (q + 1)%Z in
  (Z.sgn z * (q' * 2^e))%Z.

(** two's complement reading of an [n]-byte pattern *)
Definition signed (n : nat) (x : N) : Z :=
  let h := (2^(8 * Z.of_nat n - 1))%Z in
  if (Z.of_N x <? h)%Z then Z.of_N x else (Z.of_N x - 2 * h)%Z.

(** DataLoader.h / Recorder.h: loaded configuration; item types are the raw
    [uint32_t] cast to the enum (DataLoader.cpp:181). *)
Record litem := { li_type : N; li_name : list N }.
(** DataLoader.h:66, Recorder.h:104-113 an entry of data_cfgs *)
Record lcfg := { lc_name : list N; lc_item_cnt : N; lc_items : list litem }.

(** DataLoader.cpp:100-141  the switch: [Some (offset, read)] for a known type. *)
Definition type_of_code (c : N) : option base_type :=
  match c with
  | 0 => Some Tu8 | 1 => Some Ti8 | 2 => Some Tu16 | 3 => Some Ti16 | 4 => Some Tu32
  | 5 => Some Ti32 | 6 => Some Tu64 | 7 => Some Ti64 | 8 => Some Tf32 | 9 => Some Tf64
  | _ => None
  end.
(** DataLoader.cpp:100-141 the cast to float of one item *)
Definition cast_float (t : base_type) (x : N) : value :=
  match t with
  | Tu8 | Tu16 | Tu32 | Tu64 => VInt (f32_of_int (Z.of_N x))
  | Ti8 => VInt (f32_of_int (signed 1 x))
  | Ti16 => VInt (f32_of_int (signed 2 x))
  | Ti32 => VInt (f32_of_int (signed 4 x))
  | Ti64 => VInt (f32_of_int (signed 8 x))
  | Tf32 => VF32 x
  | Tf64 => VF64 x
  end.

(** DataLoader.cpp:93-146  structMember2Float.  [res] and [offset] are carried
    over the loop (an unknown type leaves them unchanged). Returns the values and
    [addr - start]. *)
Fixpoint structMember2Float (buf : list N) (addr : N) (items : list litem)
         (resv : value) (offset : N) : res (list value * N) :=
  match items with
  | [] => Ret ([], 0)
  | it :: rest =>
    do vo <- match type_of_code (li_type it) with
             | Some t => do l <- slice buf addr (N.of_nat (type_size t)) ;
                         Ret (cast_float t (of_le l), N.of_nat (type_size t))
             | None => Ret (resv, offset)
             end ;
    do more <- structMember2Float buf (addr + snd vo) rest (fst vo) (snd vo) ;
    Ret (fst vo :: fst more, snd vo + snd more)
  end.

(** DataLoader.h:30-38  DataSet *)
Record dataset := {
  d_id : N; d_cnt : N; d_name : list N; d_subs : list (list N);
  d_cols : list (list value); d_time : list N }.

(** DataLoader.h:40-46 *)
Inductive errcode := E_OK | E_NO_HEADER | E_CHECKFAILED | E_ENDMARK | E_NOT_MATCH.
(** texts appended to error_strings *)
Inductive errstr := S_nofile | S_not_configured (id : N) | S_crc | S_header_damaged | S_endmark.

(** DataLoader.h:65-72 the members of DataLoader *)
Record loader := {
  l_data : list (N * dataset);
  l_cfgs : list (N * lcfg);
  l_version : N;
  l_file_offset : N;
  l_header_size : N;
  l_err : errcode;
  l_errs : list (N * errcode);
  l_strs : list errstr }.

(** DataLoader.cpp:10-15  constructor (errorCode and header_size are left uninitialised
    there; LoadFile sets errorCode first, header_size is not read before set). *)
Definition new_loader : loader :=
  {| l_data := []; l_cfgs := []; l_version := 0; l_file_offset := 0; l_header_size := 0;
     l_err := E_OK; l_errs := []; l_strs := [] |}.

(** std::map operations on association lists *)
Definition find {A} (k : N) (m : list (N * A)) : option A :=
  match List.find (fun p => N.eqb (fst p) k) m with Some p => Some (snd p) | None => None end.
(** insert keeps an existing entry *)
Definition insert {A} (k : N) (v : A) (m : list (N * A)) : list (N * A) :=
  match find k m with Some _ => m | None => m ++ [(k, v)] end.
(** operator[] assignment *)
Definition assign {A} (k : N) (v : A) (m : list (N * A)) : list (N * A) :=
  match find k m with
  | Some _ => map (fun p => if N.eqb (fst p) k then (k, v) else p) m
  | None => m ++ [(k, v)]
  end.

(** conversion of a [char[16]] to std::string: up to the first NUL; without a
    NUL the read runs off the array. *)
Fixpoint c_str (l : list N) : res (list N) :=
  match l with
  | [] => OOB
  | b :: r => if b =? 0 then Ret [] else do s <- c_str r ; Ret (b :: s)
  end.
(** DataLoader.cpp:59-99: the names of the items, each converted as above *)
Fixpoint c_strs (l : list (list N)) : res (list (list N)) :=
  match l with
  | [] => Ret []
  | a :: r => do s <- c_str a ; do t <- c_strs r ; Ret (s :: t)
  end.

(** DataLoader.cpp:87-89  push one value per column; [data[i]] beyond the number of
    columns is out of bounds ([OOB]); surplus columns are left alone. *)
Fixpoint push_cols (cols : list (list value)) (vals : list value) : res (list (list value)) :=
  match vals, cols with
  | [], _ => Ret cols
  | v :: vs, c :: cs => do r <- push_cols cs vs ; Ret ((c ++ [v]) :: r)
  | _ :: _, [] => OOB
  end.

(** DataLoader.cpp:67-79  a new DataSet for a configuration *)
Definition new_dataset (id : N) (c : lcfg) : res dataset :=
  do nm <- c_str (lc_name c) ;
  do subs <- c_strs (map li_name (lc_items c)) ;
  Ret {| d_id := id; d_cnt := lc_item_cnt c; d_name := nm; d_subs := subs;
         d_cols := map (fun _ => []) (lc_items c); d_time := [] |}.

(** DataLoader.cpp:61-90  DataLoader::AddData.  Offsets inside the (unpacked)
    recorder_elements_header: timestamp 8, length 16, data 20; sizeof 32. *)
Definition add_data (buf : list N) (pd : N) (msg_id : N) (st : loader) : res loader :=
  match find msg_id (l_cfgs st) with
  | None => Ret {| l_data := l_data st; l_cfgs := l_cfgs st; l_version := l_version st;
                   l_file_offset := l_file_offset st; l_header_size := l_header_size st;
                   l_err := l_err st; l_errs := l_errs st;
                   l_strs := l_strs st ++ [S_not_configured msg_id] |}
  | Some c =>
    do ds <- match find msg_id (l_data st) with
             | Some d => Ret d
             | None => new_dataset msg_id c
             end ;
    do ts <- slice buf (pd + 8) 8 ;
    do ro <- structMember2Float buf (pd + 20) (lc_items c) (VF32 0) 0 ;
    do len <- rd32 buf (pd + 16) ;
    do cols <- push_cols (d_cols ds) (fst ro) ;
    let mismatch := negb (len =? u32 (32 + snd ro + 2^32 - 4)) in
    let ds' := {| d_id := d_id ds; d_cnt := d_cnt ds; d_name := d_name ds; d_subs := d_subs ds;
                  d_cols := cols; d_time := d_time ds ++ [of_le ts] |} in
    Ret {| l_data := assign msg_id ds' (l_data st); l_cfgs := l_cfgs st; l_version := l_version st;
           l_file_offset := l_file_offset st; l_header_size := l_header_size st;
           l_err := if mismatch then E_NOT_MATCH else l_err st;
           l_errs := if mismatch then assign msg_id E_NOT_MATCH (l_errs st) else l_errs st;
           l_strs := l_strs st |}
  end.

(** DataLoader.cpp:179-186  items of one data set *)
Fixpoint load_items (buf : list N) (pb : N) (cnt : nat) : res (list litem * N) :=
  match cnt with
  | O => Ret ([], pb)
  | S k =>
    do t <- rd32 buf pb ;
    do nm <- slice buf (pb + 4) 16 ;
    do more <- load_items buf (pb + 20) k ;
    Ret ({| li_type := t; li_name := nm |} :: fst more, snd more)
  end.

(** DataLoader.cpp:171-189  data sets; configurations are inserted as they are read *)
Fixpoint load_sets (buf : list N) (pb : N) (cnt : nat)
         (cfgs : list (N * lcfg)) (errs : list (N * errcode))
  : res (list (N * lcfg) * list (N * errcode) * N) :=
  match cnt with
  | O => Ret (cfgs, errs, pb)
  | S k =>
    do id <- rd32 buf pb ;
    do ic <- rd32 buf (pb + 4) ;
    do nm <- slice buf (pb + 8) 16 ;
    do its <- load_items buf (pb + 24) (N.to_nat ic) ;
    load_sets buf (snd its) k
      (insert id {| lc_name := nm; lc_item_cnt := ic; lc_items := fst its |} cfgs)
      (insert id E_OK errs)
  end.

(** DataLoader.cpp:152-212  _loadHeader: new state and returned offset *)
Definition load_header (buf : list N) (st : loader) : res (loader * N) :=
  do mark <- rd32 buf 0 ;
  if negb (mark =? RECORDER_HEADER_START_MARK) then Ret (st, 0) else
  do hl <- rd32 buf 4 ;
  do crc <- crc_range buf 0 (u32 (hl + 2^32 - 4)) ;
  if negb (crc =? 0) then
    Ret ({| l_data := l_data st; l_cfgs := l_cfgs st; l_version := l_version st;
            l_file_offset := l_file_offset st; l_header_size := l_header_size st;
            l_err := E_CHECKFAILED; l_errs := l_errs st;
            l_strs := l_strs st ++ [S_header_damaged] |}, 0)
  else
  do ver <- rd32 buf 8 ;
  do cnt <- rd32 buf 12 ;
  do r <- load_sets buf 16 (N.to_nat cnt) (l_cfgs st) (l_errs st) ;
  let pb := snd r + 4 in
  do em <- rd32 buf pb ;
  if negb (em =? RECORDER_HEADER_END_MARK) then
    Ret ({| l_data := l_data st; l_cfgs := []; l_version := ver;
            l_file_offset := l_file_offset st; l_header_size := hl;
            l_err := E_ENDMARK; l_errs := snd (fst r);
            l_strs := l_strs st ++ [S_endmark] |}, 0)
  else
    Ret ({| l_data := l_data st; l_cfgs := fst (fst r); l_version := ver;
            l_file_offset := l_file_offset st; l_header_size := hl;
            l_err := l_err st; l_errs := snd (fst r);
            l_strs := l_strs st |}, u32 pb).

(** assignment to file_offset, DataLoader.h:69 *)
Definition set_offset (off : N) (st : loader) : loader :=
  {| l_data := l_data st; l_cfgs := l_cfgs st; l_version := l_version st;
     l_file_offset := off; l_header_size := l_header_size st;
     l_err := l_err st; l_errs := l_errs st; l_strs := l_strs st |}.
(** assignment to header_size, DataLoader.h:69 *)
Definition set_header_size (n : N) (st : loader) : loader :=
  {| l_data := l_data st; l_cfgs := l_cfgs st; l_version := l_version st;
     l_file_offset := l_file_offset st; l_header_size := n;
     l_err := l_err st; l_errs := l_errs st; l_strs := l_strs st |}.
(** assignment to errorCode, DataLoader.h:70 *)
Definition set_err (e : errcode) (st : loader) : loader :=
  {| l_data := l_data st; l_cfgs := l_cfgs st; l_version := l_version st;
     l_file_offset := l_file_offset st; l_header_size := l_header_size st;
     l_err := e; l_errs := l_errs st; l_strs := l_strs st |}.
(** error_strings.push_back, DataLoader.h:72 *)
Definition add_str (s : errstr) (st : loader) : loader :=
  {| l_data := l_data st; l_cfgs := l_cfgs st; l_version := l_version st;
     l_file_offset := l_file_offset st; l_header_size := l_header_size st;
     l_err := l_err st; l_errs := l_errs st; l_strs := l_strs st ++ [s] |}.
(** error_strings.clear, DataLoader.h:72 *)
Definition clear_strs (st : loader) : loader :=
  {| l_data := l_data st; l_cfgs := l_cfgs st; l_version := l_version st;
     l_file_offset := l_file_offset st; l_header_size := l_header_size st;
     l_err := l_err st; l_errs := l_errs st; l_strs := [] |}.

(** one turn of the loop DataLoader.cpp:41-57; [Stop] when the loop condition fails *)
Inductive turn := Stop | Next (st : loader).
(** DataLoader.cpp:41-57 one turn of the loop *)
Definition scan_step (buf : list N) (st : loader) : res turn :=
  let off := l_file_offset st in
  if negb (off <? N.of_nat (length buf)) then Ret Stop else
  do mark <- rd32 buf off ;
  if negb (mark =? RECORDER_HEADER) then Ret (Next (set_offset (off + 1) st)) else
  do ml <- rd32 buf (off + 16) ;
  do crc <- crc_range buf off (u32 (ml + 2^32 - 4)) ;
  if negb (crc =? 0) then Ret (Next (add_str S_crc st)) else
  do id <- rd32 buf (off + 4) ;
  do st' <- add_data buf off id (set_offset (off + ml) st) ;
  Ret (Next st').

(** [fuel] turns of the loop; [None]: not finished yet *)
Fixpoint run (fuel : nat) (buf : list N) (st : loader) : option (res loader) :=
  match fuel with
  | O => None
  | S k => match scan_step buf st with
           | OOB => Some OOB
           | Ret Stop => Some (Ret st)
           | Ret (Next st') => run k buf st'
           end
  end.

(** DataLoader.cpp:17-58  LoadFile; [file = None]: the file cannot be opened. *)
Definition load_file (fuel : nat) (file : option (list N)) (st0 : loader) : option (res loader) :=
  let st := set_err E_OK (clear_strs st0) in
  match file with
  | None => Some (Ret (add_str S_nofile st))
  | Some buf =>
    match load_header buf st with
    | OOB => Some OOB
    | Ret (st1, off) =>
      let st2 := set_header_size off (set_offset off st1) in
      if off =? 0 then Some (Ret (set_err E_NO_HEADER st2))
      else run fuel buf st2
    end
  end.
