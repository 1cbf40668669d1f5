(** Model of the sensor file readers: App/AppCommon/FileIO.cpp:198-336 (IMUReader, GnssReader), the
    AddFile loops of App/PostDataFusion/DataManager.cpp:29-54 and GnssData_t::toRgioeData
    (DataManager.cpp:86-95).

    A value that has never been written is [Indet] (indeterminate); deciding on one is
    undefined behaviour and ends the model run with [Undef].

    Simplifications.  Text is a list of blank-separated tokens, each a number or something
    that is not one; integer columns hold integers; a bad token fails at its first character
    (so it does not set end-of-file).  Binary doubles and their narrowing to RgioeFloatType
    are an arbitrary function [decode] of eight bytes, negation an arbitrary [neg]. *)
From Coq Require Import QArith Qround List Arith Bool ZArith.
From Verif Require Import MergeModel.
Import ListNotations.

(** content of a member: a known number, or not initialised / not specified *)
Inductive value (V : Type) := Known (v : V) | Indet.
Arguments Known {V} v. Arguments Indet {V}.
(** outcome of a reading loop *)
Inductive result (A : Type) := Ok (a : A) | Undef | Hang.
Arguments Ok {A} a. Arguments Undef {A}. Arguments Hang {A}.

(** * binary IMU files, IMU_FILE_WHU_BIN *)
Section Whu.
Context {B V : Type} (decode : list B -> V) (neg : V -> V).

(** FileIO.h:138-149 ImuData_t *)
Record imu_data := { i_time : value V; gyro : value V * value V * value V; acce : value V * value V * value V }.
(** IMUFrame, as in Config.h:46 *)
Inductive imu_frame := IMU_FRAME_FRD | IMU_FRAME_RFU.

(** FileIO.cpp:243-249 unary minus *)
Definition vneg (v : value V) : value V := match v with Known x => Known (neg x) | Indet => Indet end.
(** FileIO.cpp:243-249  right-front-up to front-right-down *)
Definition swap_axes (v : value V * value V * value V) : value V * value V * value V :=
  let '(x, y, z) := v in (y, x, vneg z).
(** FileIO.cpp:243-249 in ReadNext *)
Definition to_frd (f : imu_frame) (d : imu_data) : imu_data :=
  match f with
  | IMU_FRAME_FRD => d
  | IMU_FRAME_RFU => {| i_time := i_time d; gyro := swap_axes (gyro d); acce := swap_axes (acce d) |}
  end.

(** element [k] of the local array [fp64 data[7]] after [ifs.read] delivered the bytes [got]:
    not fully written elements are indeterminate *)
Definition element (got : list B) (k : nat) : value V :=
  if Nat.leb (8 * k + 8) (length got) then Known (decode (firstn 8 (skipn (8 * k) got))) else Indet.
(** FileIO.cpp:231-239 *)
Definition from_array (got : list B) : imu_data :=
  {| i_time := element got 0;
     gyro := (element got 1, element got 2, element got 3);
     acce := (element got 4, element got 5, element got 6) |}.

(** FileIO.cpp:214-252 and DataManager.cpp:46-50: [rest] is the unread part of the file.  [read] sets
    end-of-file exactly when fewer than 56 bytes are left. *)
Fixpoint read_whu (fuel : nat) (f : imu_frame) (rest : list B) : result (list imu_data) :=
  match fuel with
  | O => Hang
  | S k =>
    let d := to_frd f (from_array (firstn 56 rest)) in
    let eof := Nat.ltb (length rest) 56 in
    if eof then Ok [d]
    else match read_whu k f (skipn 56 rest) with
         | Ok l => Ok (d :: l)
         | e => e
         end
  end.
End Whu.

(** * text *)
Inductive token := T_num (q : Q) | T_bad.

(** extraction of [n] consecutive values of the same statement from a stream with the tokens
    [ts]; [good] the stream state.  [init] are the values before.  A missing token leaves the
    variable unchanged, a bad one stores 0; after either, nothing more is stored. *)
Fixpoint extract (init : list (value Q)) (good : bool) (ts : list token) : list (value Q) * bool * list token :=
  match init with
  | [] => ([], good, ts)
  | v :: vs =>
    if good then
      match ts with
      | [] => let '(l, g, r) := extract vs false [] in (v :: l, g, r)
      | T_num q :: r => let '(l, g, r') := extract vs true r in (Known q :: l, g, r')
      | T_bad :: r => let '(l, g, r') := extract vs false (T_bad :: r) in (Known 0 :: l, g, r')
      end
    else let '(l, g, r) := extract vs false ts in (v :: l, g, r)
  end.

(** ** IMU text files, IMU_FILE_IMUTXT (FileIO.cpp:227-230, 250).  The whole file is one token stream;
    [blank_end]: there is white space (a final newline) behind the last token.  The variable
    [time] has no initial value, the others are 0 (FileIO.h:151-160).  End-of-file is set by
    the extraction that runs into the end: of the last token if nothing follows it, or of
    a missing one. *)
Definition imu_init : list (value Q) := Indet :: repeat (Known 0) 6.
(** FileIO.cpp:227-230, 250: ReadNext for a text file, until it fails *)
Fixpoint read_imu_txt (fuel : nat) (blank_end : bool) (good : bool) (ts : list token) : result (list (list (value Q))) :=
  match fuel with
  | O => Hang
  | S k =>
    let '(d, good', ts') := extract imu_init good ts in
    let eof := match ts' with
               | [] => if good' then negb blank_end else true
               | _ => false
               end in
    if eof then Ok [d]
    else match read_imu_txt k blank_end good' ts' with
         | Ok l => Ok (d :: l)
         | e => e
         end
  end.

(** ** GNSS text files *)
(** FileIO.h:31-40 *)
Inductive gnss_format := GNSS_TXT_POS_7 | GNSS_10_LINES | RTKLIB_TXT_POS | GNSS_TXT_GGA | OTHER_FORMAT.
(** RgioeDataType.h:62-71 *)
Definition SPP : Z := 1. Definition RTK_DGPS : Z := 2. Definition RTK_FIX : Z := 4.
(** RgioeDataType.h:62-71 RTK_FLOAT, INVALID *)
Definition RTK_FLOAT : Z := 5. Definition INVALID : Z := 6.

(** FileIO.h:151-169 GnssData_t, the members that are read *)
Record gnss_data := { g_time : Q; g_lat : Q; g_lon : Q; g_height : Q; g_std : Q * Q * Q; g_mode : Z }.

(** a fix as parsed, before the final test *)
Record raw_fix := { r_time : value Q; r_llh : list (value Q); r_std : list (value Q); r_mode : value Z }.

(** operator>> into an int member, FileIO.cpp:253-332 *)
Definition as_int (v : value Q) : value Z := match v with Known q => Known (Qfloor q) | Indet => Indet end.
(** FileIO.cpp:253-332: members set to zero *)
Definition zeros (n : nat) : list (value Q) := repeat (Known 0) n.
(** FileIO.cpp:253-332: the same number for the three deviations *)
Definition std3 (q : Q) : list (value Q) := [Known q; Known q; Known q].

(** FileIO.cpp:271-330 the format switch, on the tokens of one line.  [None]: null pointer used
    (:293, [gnss = {0}] resets the shared pointer before its members are written). *)
Definition parse_line (f : gnss_format) (ts : list token) : option raw_fix :=
  match f with
  | GNSS_TXT_POS_7 =>
    let '(l, _, _) := extract (Indet :: zeros 6) true ts in
    Some {| r_time := nth 0 l Indet; r_llh := firstn 3 (skipn 1 l); r_std := firstn 3 (skipn 4 l);
            r_mode := Known SPP |}
  | RTKLIB_TXT_POS => (* week time lat lon height std std std q ns; week, q, ns uninitialised *)
    let '(l, _, _) := extract (Indet :: Indet :: zeros 6 ++ [Indet; Indet]) true ts in
    Some {| r_time := nth 1 l Indet; r_llh := firstn 3 (skipn 2 l); r_std := firstn 3 (skipn 5 l);
            r_mode := as_int (nth 8 l Indet) |}
  | GNSS_10_LINES => None
  | GNSS_TXT_GGA => (* week time lat lon height std std mode ns *)
    let '(l, _, _) := extract (Indet :: Indet :: zeros 6 ++ [Indet]) true ts in
    let m := as_int (nth 7 l Indet) in
    let st := firstn 2 (skipn 5 l) ++ [Known 0] in
    let '(st', m') := match m with
      | Indet => (st, Indet)
      | Known m => if Z.eqb m RTK_FIX then (std3 (1 # 1000), Known m)
                   else if Z.eqb m RTK_FLOAT then (std3 (5 # 1000), Known m)
                   else if Z.eqb m RTK_DGPS then (std3 1, Known INVALID)
                   else if Z.eqb m SPP then (std3 1, Known m)
                   else (st, Known INVALID)
      end in
    Some {| r_time := nth 1 l Indet; r_llh := firstn 3 (skipn 2 l); r_std := st'; r_mode := m' |}
  | OTHER_FORMAT =>
    Some {| r_time := Indet; r_llh := zeros 3; r_std := zeros 3; r_mode := Known 0%Z |}
  end.

(** FileIO.cpp:333-334: the number that is compared *)
Definition val (v : value Q) : Q := match v with Known q => q | Indet => 0 end.
(** FileIO.cpp:333-334  [if (time > 0 and mode > 0) return gnss; else return nullptr] *)
Definition accept (r : raw_fix) : result (option gnss_data) :=
  match r_time r with
  | Indet => Undef
  | Known t =>
    if Qltb 0 t then
      match r_mode r with
      | Indet => Undef
      | Known m =>
        if Z.ltb 0 m then
          Ok (Some {| g_time := t; g_lat := val (nth 0 (r_llh r) Indet); g_lon := val (nth 1 (r_llh r) Indet);
                      g_height := val (nth 2 (r_llh r) Indet);
                      g_std := (val (nth 0 (r_std r) Indet), val (nth 1 (r_std r) Indet), val (nth 2 (r_std r) Indet));
                      g_mode := m |})
        else Ok None
      end
    else Ok None
  end.

(** DataManager.cpp:33-37 with FileIO.cpp:261-335.  [pieces] is the file cut at its newlines (so a file
    that ends with a newline has an empty last piece); [getline] delivers them one by one and
    sets end-of-file on the last. *)
Fixpoint read_gnss (f : gnss_format) (pieces : list (list token)) : result (list gnss_data) :=
  match pieces with
  | [] => Ok []
  | line :: rest =>
    match parse_line f line with
    | None => Undef
    | Some r =>
      match accept r with
      | Undef => Undef
      | Hang => Hang
      | Ok None => Ok []
      | Ok (Some g) =>
        match read_gnss f rest with
        | Ok l => Ok (g :: l)
        | e => e
        end
      end
    end
  end.

(** DataManager.cpp:86-95  GnssData_t::toRgioeData; rgioe.h RgioeGnssData *)
Definition to_rgioe (g : gnss_data) : gnss_data :=
  {| g_time := g_time g; g_lat := g_lat g; g_lon := g_lon g; g_height := g_height g;
     g_std := g_std g; g_mode := SPP |}.
