(** Model of the record writer: Src/Recorder/Recorder.h, Recorder.cpp, RecorderType.h.
    Memory contents are lists of bytes; the host is little endian (the code
    stores through [uint32_t*] / packed structs). *)
From Coq Require Import NArith List.
From Verif Require Import CrcModel.
Import ListNotations.
Open Scope N_scope.

(** Recorder.h:14-23 *)
Definition RECORDER_HEADER : N := 0xAA55AA55.
(** Recorder.h:14-23 RECORDER_END_MARK *)
Definition RECORDER_END_MARK : N := 0xAA66AA66.
(** Recorder.h:14-23 RECORDER_MAX_ITEM_NAME_SIZE *)
Definition RECORDER_MAX_ITEM_NAME_SIZE : nat := 16.
(** Recorder.h:14-23 RECORDER_HEADER_START_MARK *)
Definition RECORDER_HEADER_START_MARK : N := 0xBB55BB66.
(** Recorder.h:14-23 RECORDER_HEADER_END_MARK *)
Definition RECORDER_HEADER_END_MARK : N := 0xBB77BB88.
(** Recorder.h:14-23 RECORDER_HEADER_MAX_LENGTH *)
Definition RECORDER_HEADER_MAX_LENGTH : nat := 4096.

(** Recorder.h:25  MSG_ID(set, id) *)
Definition MSG_ID (set id : N) : N := N.lor (u32 (N.shiftl set 16)) (N.land id 0xff).

(** Recorder.h:42-53  RecorderBaseType *)
Inductive base_type :=
| Tu8 | Ti8 | Tu16 | Ti16 | Tu32 | Ti32 | Tu64 | Ti64 | Tf32 | Tf64.
(** Recorder.h:42-53 the numbers of the enumerators *)
Definition type_code (t : base_type) : N :=
  match t with
  | Tu8 => 0 | Ti8 => 1 | Tu16 => 2 | Ti16 => 3 | Tu32 => 4
  | Ti32 => 5 | Tu64 => 6 | Ti64 => 7 | Tf32 => 8 | Tf64 => 9
  end.
(** sizeof of the C type of each enumerator *)
Definition type_size (t : base_type) : nat :=
  match t with
  | Tu8 | Ti8 => 1 | Tu16 | Ti16 => 2 | Tu32 | Ti32 | Tf32 => 4 | Tu64 | Ti64 | Tf64 => 8
  end%nat.

(** Little-endian bytes of an [n]-byte object whose bit pattern is [x]. *)
Fixpoint le_bytes (n : nat) (x : N) : list N :=
  match n with
  | O => []
  | S m => N.land x 0xff :: le_bytes m (N.shiftr x 8)
  end.

(** Recorder.h:104-113  DataItemConfig / DataSetConfig; a [char name[16]] is its 16 bytes. *)
Record item_config := { ic_type : base_type; ic_name : list N }.
(** Recorder.h:104-113 DataSetConfig, with its key in header_config *)
Record dataset_config := { dc_id : N; dc_name : list N; dc_items : list item_config }.

(** Recorder.h:56-67  layout of a packed message struct
    [header, msg_id, timestamp, length, data{...}, check_sum, end_mark];
    [length] is set to the sizeof of the struct by CREATE_RECORDER_MSG (Recorder.h:85-91).
    [payload] holds the bit pattern of each item. *)
Record message := {
  m_id : N; m_timestamp : N (* bit pattern of the double *);
  m_items : list (base_type * N) }.

(** little-endian bytes of one item of a message *)
Definition item_bytes (tv : base_type * N) : list N := le_bytes (type_size (fst tv)) (snd tv).
(** the packed items of a message (Recorder.h, struct with pack(1)) *)
Definition payload_bytes (m : message) : list N := flat_map item_bytes (m_items m).

(** sizeof(recorder_msg_NAME_t) *)
Definition msg_sizeof (m : message) : N := 20 + N.of_nat (length (payload_bytes m)) + 8.

(** struct contents in front of [check_sum] *)
Definition msg_prefix (m : message) : list N :=
  le32 RECORDER_HEADER ++ le32 (m_id m) ++ le_bytes 8 (m_timestamp m)
  ++ le32 (u32 (msg_sizeof m)) ++ payload_bytes m.

(** Recorder.h:36-40  CHECKSUM_RECORDER_CRC32: crc over the first [length - 8] bytes of
    the struct, stored byte-swapped.  [old] is the previous content of the
    [check_sum] field.  [None]: crc undefined (never happens, see the proofs). *)
Definition CHECKSUM_RECORDER_CRC32 (m : message) (old : N) : option N :=
  let raw := msg_prefix m ++ le32 old ++ le32 RECORDER_END_MARK in
  let n := u32 (u32 (msg_sizeof m) + 2^32 - 8) in
  match crc32_table (firstn (N.to_nat n) raw) with
  | Some c => Some (REVERT_CRC32 c)
  | None => None
  end.

(** Recorder.h:137-141  Recorder::Record: compute the checksum, write sizeof(T) bytes. *)
Definition record_bytes (m : message) (old : N) : option (list N) :=
  match CHECKSUM_RECORDER_CRC32 m old with
  | Some cs => Some (msg_prefix m ++ le32 cs ++ le32 RECORDER_END_MARK)
  | None => None
  end.

(** Recorder.cpp:81-102  bytes of one item and of one data set in the file header *)
Definition item_header (ic : item_config) : list N :=
  le32 (type_code (ic_type ic)) ++ ic_name ic.
(** Recorder.cpp:87-103 the bytes of one data set *)
Definition dataset_header (dc : dataset_config) : list N :=
  le32 (dc_id dc) ++ le32 (u32 (N.of_nat (length (dc_items dc)))) ++ dc_name dc
  ++ flat_map item_header (dc_items dc).

(** Recorder.cpp:75  version as float: 1 + 2/100.0 = 1.02f, bit pattern 0x3F828F5C. *)
Definition RECORDER_VERSION_BITS : N := 0x3F828F5C.

(** Recorder.cpp:63-117  Recorder::WriteHeader.  [cfg] are the entries of the
    [std::map header_config] in key order.  The header is assembled in a
    buffer of 4096 bytes without bounds check: [None] when it does not fit
    (undefined behaviour), [Some []] when nothing is written. *)
Definition header_body (cfg : list dataset_config) : list N :=
  le32 RECORDER_VERSION_BITS ++ le32 (u32 (N.of_nat (length cfg))) ++ flat_map dataset_header cfg.
(** Recorder.cpp:63-117 Recorder::WriteHeader *)
Definition write_header (cfg : list dataset_config) : option (list N) :=
  match cfg with
  | [] => Some []
  | _ =>
    let body := header_body cfg in
    let before_crc := N.of_nat (8 + length body) in
    let pre := le32 RECORDER_HEADER_START_MARK ++ le32 (u32 (before_crc + 8)) ++ body in
    if Nat.leb (length pre + 8) RECORDER_HEADER_MAX_LENGTH then
      match crc32_table pre with
      | Some c => Some (pre ++ le32 (REVERT_CRC32 c) ++ le32 RECORDER_HEADER_END_MARK)
      | None => None
      end
    else None
  end.

(** Recorder.cpp:29-57  constructor: [header_config.insert(make_pair(id, config))] keeps
    the map sorted by id and does not overwrite an existing id. *)
Fixpoint cfg_insert (c : dataset_config) (l : list dataset_config) : list dataset_config :=
  match l with
  | [] => [c]
  | d :: r => if dc_id c <? dc_id d then c :: d :: r
              else if dc_id c =? dc_id d then d :: r
              else d :: cfg_insert c r
  end.

(** Recorder.cpp:32-53 + RecorderType.h: a literal "..." copied into char[16] is padded with zeros. *)
Definition pad16 (s : list N) : list N := firstn 16 (s ++ repeat 0 16).

(** RecorderType.h:23-30  data set "imu" *)
Definition cfg_imu : dataset_config := {|
  dc_id := MSG_ID 0x17 0x21; dc_name := pad16 [105; 109; 117];
  dc_items := [
    {| ic_type := Tf32; ic_name := pad16 [97; 99; 99; 101; 95; 120] |} (* acce_x *);
    {| ic_type := Tf32; ic_name := pad16 [97; 99; 99; 101; 95; 121] |} (* acce_y *);
    {| ic_type := Tf32; ic_name := pad16 [97; 99; 99; 101; 95; 122] |} (* acce_z *);
    {| ic_type := Tf32; ic_name := pad16 [103; 121; 114; 111; 95; 120] |} (* gyro_x *);
    {| ic_type := Tf32; ic_name := pad16 [103; 121; 114; 111; 95; 121] |} (* gyro_y *);
    {| ic_type := Tf32; ic_name := pad16 [103; 121; 114; 111; 95; 122] |} (* gyro_z *)
  ] |}.

(** RecorderType.h:32-41  data set "gnss" *)
Definition cfg_gnss : dataset_config := {|
  dc_id := MSG_ID 0x17 0x22; dc_name := pad16 [103; 110; 115; 115];
  dc_items := [
    {| ic_type := Tf32; ic_name := pad16 [112; 111; 115; 95; 120] |} (* pos_x *);
    {| ic_type := Tf32; ic_name := pad16 [112; 111; 115; 95; 121] |} (* pos_y *);
    {| ic_type := Tf32; ic_name := pad16 [112; 111; 115; 95; 122] |} (* pos_z *);
    {| ic_type := Tf32; ic_name := pad16 [104; 100; 111; 112] |} (* hdop *);
    {| ic_type := Tf32; ic_name := pad16 [112; 100; 111; 112] |} (* pdop *);
    {| ic_type := Tu16; ic_name := pad16 [110; 115] |} (* ns *);
    {| ic_type := Tu8; ic_name := pad16 [109; 111; 100; 101] |} (* mode *);
    {| ic_type := Tu32; ic_name := pad16 [103; 110; 115; 115; 95; 99; 110; 116] |} (* gnss_cnt *)
  ] |}.

(** RecorderType.h:43-50  data set "kalman" *)
Definition cfg_kalman : dataset_config := {|
  dc_id := MSG_ID 0x16 0x23; dc_name := pad16 [107; 97; 108; 109; 97; 110];
  dc_items := [
    {| ic_type := Tf32; ic_name := pad16 [97; 99; 99; 101; 95; 98; 105; 97; 115; 95; 120] |} (* acce_bias_x *);
    {| ic_type := Tf32; ic_name := pad16 [97; 99; 99; 101; 95; 98; 105; 97; 115; 95; 121] |} (* acce_bias_y *);
    {| ic_type := Tf32; ic_name := pad16 [97; 99; 99; 101; 95; 98; 105; 97; 115; 95; 122] |} (* acce_bias_z *);
    {| ic_type := Tf32; ic_name := pad16 [103; 121; 114; 111; 95; 98; 105; 97; 115; 95; 120] |} (* gyro_bias_x *);
    {| ic_type := Tf32; ic_name := pad16 [103; 121; 114; 111; 95; 98; 105; 97; 115; 95; 121] |} (* gyro_bias_y *);
    {| ic_type := Tf32; ic_name := pad16 [103; 121; 114; 111; 95; 98; 105; 97; 115; 95; 122] |} (* gyro_bias_z *)
  ] |}.

(** RecorderType.h:52-59  data set "meas_pos" *)
Definition cfg_meas_pos : dataset_config := {|
  dc_id := MSG_ID 0x16 0x24; dc_name := pad16 [109; 101; 97; 115; 95; 112; 111; 115];
  dc_items := [
    {| ic_type := Tf32; ic_name := pad16 [122; 95; 120] |} (* z_x *);
    {| ic_type := Tf32; ic_name := pad16 [122; 95; 121] |} (* z_y *);
    {| ic_type := Tf32; ic_name := pad16 [122; 95; 122] |} (* z_z *);
    {| ic_type := Tf32; ic_name := pad16 [114; 95; 120] |} (* r_x *);
    {| ic_type := Tf32; ic_name := pad16 [114; 95; 121] |} (* r_y *);
    {| ic_type := Tf32; ic_name := pad16 [114; 95; 122] |} (* r_z *)
  ] |}.

(** RecorderType.h:62-73  data set "result" *)
Definition cfg_result : dataset_config := {|
  dc_id := MSG_ID 0x16 0x25; dc_name := pad16 [114; 101; 115; 117; 108; 116];
  dc_items := [
    {| ic_type := Tu8; ic_name := pad16 [115; 116; 97; 116; 117; 115] |} (* status *);
    {| ic_type := Tf32; ic_name := pad16 [112; 111; 115; 95; 120] |} (* pos_x *);
    {| ic_type := Tf32; ic_name := pad16 [112; 111; 115; 95; 121] |} (* pos_y *);
    {| ic_type := Tf32; ic_name := pad16 [112; 111; 115; 95; 122] |} (* pos_z *);
    {| ic_type := Tf32; ic_name := pad16 [118; 110; 95; 120] |} (* vn_x *);
    {| ic_type := Tf32; ic_name := pad16 [118; 110; 95; 121] |} (* vn_y *);
    {| ic_type := Tf32; ic_name := pad16 [118; 110; 95; 122] |} (* vn_z *);
    {| ic_type := Tf32; ic_name := pad16 [97; 116; 116; 105; 95; 120] |} (* atti_x *);
    {| ic_type := Tf32; ic_name := pad16 [97; 116; 116; 105; 95; 121] |} (* atti_y *);
    {| ic_type := Tf32; ic_name := pad16 [97; 116; 116; 105; 95; 122] |} (* atti_z *)
  ] |}.

(** RecorderType.h:75-80  data set "time_check" *)
Definition cfg_time_check : dataset_config := {|
  dc_id := MSG_ID 0x16 0x26; dc_name := pad16 [116; 105; 109; 101; 95; 99; 104; 101; 99; 107];
  dc_items := [
    {| ic_type := Tf32; ic_name := pad16 [100; 101; 108; 116; 97; 95; 116; 105; 109; 101] |} (* delta_time *);
    {| ic_type := Tf32; ic_name := pad16 [97; 118; 101; 114; 97; 103; 101; 95; 116; 105; 109; 101] |} (* average_time *);
    {| ic_type := Tf32; ic_name := pad16 [109; 97; 120; 95; 100; 101; 108; 116; 97; 95; 116; 105; 109; 101] |} (* max_delta_time *);
    {| ic_type := Tf32; ic_name := pad16 [103; 110; 115; 115; 95; 100; 101; 108; 97; 121; 95; 116; 105; 109; 101] |} (* gnss_delay_time *)
  ] |}.

(** RecorderType.h:82-86  data set "ahrs" *)
Definition cfg_ahrs : dataset_config := {|
  dc_id := MSG_ID 0x16 0x27; dc_name := pad16 [97; 104; 114; 115];
  dc_items := [
    {| ic_type := Tf32; ic_name := pad16 [114; 111; 108; 108] |} (* roll *);
    {| ic_type := Tf32; ic_name := pad16 [112; 105; 116; 99; 104] |} (* pitch *);
    {| ic_type := Tf32; ic_name := pad16 [104; 101; 97; 100; 105; 110; 103] |} (* heading *)
  ] |}.

(** RecorderType.h:88-103  data set "align" *)
Definition cfg_align : dataset_config := {|
  dc_id := MSG_ID 0x16 0x28; dc_name := pad16 [97; 108; 105; 103; 110];
  dc_items := [
    {| ic_type := Tf32; ic_name := pad16 [97; 116; 116; 105; 95; 120] |} (* atti_x *);
    {| ic_type := Tf32; ic_name := pad16 [97; 116; 116; 105; 95; 121] |} (* atti_y *);
    {| ic_type := Tf32; ic_name := pad16 [97; 116; 116; 105; 95; 122] |} (* atti_z *);
    {| ic_type := Tf32; ic_name := pad16 [118; 110; 95; 120] |} (* vn_x *);
    {| ic_type := Tf32; ic_name := pad16 [118; 110; 95; 121] |} (* vn_y *);
    {| ic_type := Tf32; ic_name := pad16 [118; 110; 95; 122] |} (* vn_z *);
    {| ic_type := Tf32; ic_name := pad16 [112; 111; 115; 95; 120] |} (* pos_x *);
    {| ic_type := Tf32; ic_name := pad16 [112; 111; 115; 95; 121] |} (* pos_y *);
    {| ic_type := Tf32; ic_name := pad16 [112; 111; 115; 95; 122] |} (* pos_z *);
    {| ic_type := Tf32; ic_name := pad16 [118; 95; 110; 111; 114; 109] |} (* v_norm *);
    {| ic_type := Tf32; ic_name := pad16 [97; 95; 110; 111; 114; 109] |} (* a_norm *);
    {| ic_type := Tu8; ic_name := pad16 [105; 115; 95; 115; 116; 97; 116; 105; 99] |} (* is_static *);
    {| ic_type := Tu8; ic_name := pad16 [121; 97; 119; 95; 97; 108; 105; 103; 110] |} (* yaw_align *);
    {| ic_type := Tu8; ic_name := pad16 [108; 101; 118; 101; 108; 95; 97; 108; 105; 103; 110] |} (* level_align *)
  ] |}.

(** Recorder.cpp:29-57 with RecorderDef.h including RecorderType.h: the registered sets. *)
Definition registered : list dataset_config :=
  fold_left (fun l c => cfg_insert c l)
    [cfg_imu; cfg_gnss; cfg_kalman; cfg_meas_pos; cfg_result; cfg_time_check; cfg_ahrs; cfg_align] [].
