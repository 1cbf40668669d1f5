(** Model of Src/RgioeDefine.h:17-57: where the optional blocks of the error state start, and of the raw
    frame decoding of the simulation node (App/RtSimulation/src/navplay/src). *)
From Coq Require Import ZArith List Bool.
Import ListNotations.

(** compile-time switches RGIOE_ESTIMATE_* *)
Record selection := { gyro_sf : bool; acce_sf : bool; level_arm : bool; odo_sf : bool }.

(** RgioeDefine.h:17 *)
Definition BASE_STATE : nat := 15.
(** RgioeDefine.h:23-29 *)
Definition gyro_size (s : selection) : nat := if gyro_sf s then 3 else 0.
(** RgioeDefine.h:23-29 the first index *)
Definition gyro_start (s : selection) : nat := BASE_STATE.
(** RgioeDefine.h:31-37 *)
Definition acce_size (s : selection) : nat := if acce_sf s then 3 else 0.
(** RgioeDefine.h:31-37 the first index *)
Definition acce_start (s : selection) : nat :=
  if acce_sf s then gyro_start s + gyro_size s else gyro_start s.
(** RgioeDefine.h:39-45 *)
Definition arm_size (s : selection) : nat := if level_arm s then 3 else 0.
(** RgioeDefine.h:39-45 the first index *)
Definition arm_start (s : selection) : nat :=
  if level_arm s then acce_start s + acce_size s else acce_start s.
(** RgioeDefine.h:47-53 *)
Definition odo_size (s : selection) : nat := if odo_sf s then 1 else 0.
(** RgioeDefine.h:47-53 the first index *)
Definition odo_start (s : selection) : nat :=
  if odo_sf s then arm_start s + arm_size s else arm_start s.
(** RgioeDefine.h:56 *)
Definition STATE_CNT (s : selection) : nat :=
  BASE_STATE + gyro_size s + acce_size s + odo_size s + arm_size s.

(** * raw frames *)
(** conversion to int16_t keeps the value modulo 2^16 *)
Definition int16 (z : Z) : Z := (let m := z mod 65536 in if m <? 32768 then m else m - 65536)%Z.
(** navplay_node.cpp:29-33  the integer that is converted to float and divided by 1000; bytes
    0..255.  (The float conversion of a 16-bit integer is exact.) *)
Definition raw_velocity (h l : Z) : Z := Z.lor (int16 (Z.shiftl h 8)) l.
(** AdiHandle.cpp:27-34  CheckSum: 16-bit sum of the first 20 bytes *)
Definition adi_checksum (frame : list Z) : bool :=
  Z.eqb (fold_left (fun s b => (s + b) mod 65536)%Z (firstn 20 frame) 0%Z) 0.
