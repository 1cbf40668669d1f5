(** Model of App/RtSimulation/src/navplay/src/AdiHandle.cpp: raw inertial data of an ADIS16465, and of the IMU messages made of
    them (navplay_node.cpp:83-97, rtsim_fusion_node.cpp:81-91).  Real arithmetic. *)
From Coq Require Import Reals ZArith.
From Verif Require Import RealMath.
Open Scope R_scope.

(** RawStruct.h:20-29 ImuRawAdi, the members that are read: 16-bit integers *)
Record adi := { ad_gyro : Z * Z * Z; ad_acce : Z * Z * Z }.
(** AdiHandle.cpp:19-26: a triple of raw integers times a factor, axis by axis *)
Definition scaled (k : R) (v : Z * Z * Z) : vec := let '(x, y, z) := v in V (k * IZR x) (k * IZR y) (k * IZR z).

(** AdiHandle.cpp:71-73 Adis16465Handle(): ka = 0.25e-3, kg = 1/160 pi/180, rate 125, g 9.8015 *)
Definition ka : R := 25 / 100000.
(** AdiHandle.cpp:71-73 kg *)
Definition kg : R := 1 / 160 * PI / 180.
(** AdiHandle.cpp:71-73 rate *)
Definition adi_rate : R := 125.
(** AdiHandle.cpp:71-73 g *)
Definition adi_g : R := 98015 / 10000.

(** angular rate (or angle) and acceleration (or velocity) *)
Record inertial := Inertial { in_gyro : vec; in_acce : vec }.
(** AdiHandle.cpp:19-26 ConvertRaw2D *)
Definition convert_raw (d : adi) : inertial := Inertial (scaled kg (ad_gyro d)) (scaled ka (ad_acce d)).
(** AdiHandle.cpp:44-59 Absolute2Increment; never called *)
Definition frd (v : vec) : vec := V (vy v) (vx v) (- vz v).
(** AdiHandle.cpp:44-59 Absolute2Increment; never called *)
Definition absolute_to_increment (rfu2frd : bool) (i : inertial) : inertial :=
  let dt := 1 / adi_rate in
  let g := vscale dt (in_gyro i) in let a := vscale (dt * adi_g) (in_acce i) in
  if rfu2frd then Inertial (frd g) (frd a) else Inertial g a.
(** navplay_node.cpp:83-97 toImuMsg; the fusion node hands the values of the message to the library (rtsim_fusion_node.cpp:84-90) *)
Definition imu_message (d : adi) : inertial := let i := convert_raw d in Inertial (frd (in_gyro i)) (frd (in_acce i)).
