(** Src/AttiAhrs.{h,cpp}: the attitude-only filter. *)
From Coq Require Import Reals List.
From Verif Require Import RealMath EarthModel ConvertModel SmoothModel.
Import ListNotations.
Open Scope R_scope.

(** Src/AttiAhrs.h:43-48 members; Kp, Ki and ebMax are constants below, tk and method are never read *)
Record ahrs := Ah { a_ts : R; a_qnb : quat; a_Cnb : mat; a_int : vec }.

(** Src/AttiAhrs.cpp:16-17 beta = 2.146/100, Kp = 2 beta, Ki = beta^2 *)
Definition a_beta : R := 2146 / 1000 / 100.
(** Src/AttiAhrs.cpp:16-17 Kp = 2 beta *)
Definition a_Kp : R := 2 * a_beta.
(** Src/AttiAhrs.cpp:16-17 Ki = beta^2 *)
Definition a_Ki : R := a_beta * a_beta.
(** Src/AttiAhrs.cpp:21 ebMax = 1 degree on each axis *)
Definition a_max : R := PI / 180.

(** Src/AttiAhrs.cpp:15-23 constructor *)
Definition ahrs_new (dt : R) : ahrs :=
  let q := euler_to_quaternion vzero in Ah dt q (quaternion_to_dcm q) vzero.

(** Src/AttiAhrs.cpp:57-59 clamping *)
Definition clamp (x : R) : R := if Rlt_dec a_max x then a_max else if Rlt_dec x (- a_max) then - a_max else x.

(** Src/AttiAhrs.cpp:32-60 Update(wm, vm). The local mag is zero, so lines 41-45 are dead and wxyz.cross(mag0)
    is zero. Cnb.row(2).transpose() is the third row. *)
Definition ahrs_update (s : ahrs) (wm vm : vec) : ahrs :=
  let nm := vnorm vm / a_ts s in
  let acc0 := if Rlt_dec (1 / 2) nm then vdiv vm (nm * a_ts s) else vzero in
  let row2 := V (m20 (a_Cnb s)) (m21 (a_Cnb s)) (m22 (a_Cnb s)) in
  let exyz := cross row2 acc0 in
  let int := vadd (a_int s) (vscale (a_Ki * a_ts s) exyz) in
  let rv := vsub wm (vscale (a_ts s) (vadd (vscale a_Kp exyz) int)) in
  let q := qnormalized (qmul (a_qnb s) (rv_to_quaternion rv)) in
  Ah (a_ts s) q (quaternion_to_dcm q) (V (clamp (vx int)) (clamp (vy int)) (clamp (vz int))).

(** Src/AttiAhrs.cpp:62-79 Update(gyro, acc, mag): neither normalisation nor clamping *)
Definition ahrs_update_mag (s : ahrs) (gyro acc mag : vec) : ahrs :=
  let acc0 := if Rlt_dec (1 / 10) (vnorm acc) then vdiv acc (vnorm acc) else vzero in
  let mag0 := if Rlt_dec (1 / 10) (vnorm mag) then vdiv mag (vnorm mag) else vzero in
  let b := mvec (a_Cnb s) mag0 in
  let bxyz := V 0 (sqrt (vx b * vx b + vy b * vy b)) (vz b) in
  let wxyz := mvec (mtrans (a_Cnb s)) bxyz in
  let row2 := V (m20 (a_Cnb s)) (m21 (a_Cnb s)) (m22 (a_Cnb s)) in
  let exyz := vadd (cross row2 acc0) (cross wxyz mag0) in
  let int := vadd (a_int s) (vscale (a_Ki * a_ts s) exyz) in
  let q := qmul (a_qnb s) (rv_to_quaternion (vscale (a_ts s) (vsub (vsub gyro (vscale a_Kp exyz)) int))) in
  Ah (a_ts s) q (quaternion_to_dcm q) int.

(** Src/AttiAhrs.cpp:81-84 SetAtti(euler) *)
Definition ahrs_set_euler (s : ahrs) (e : vec) : ahrs :=
  let q := euler_to_quaternion e in Ah (a_ts s) q (quaternion_to_dcm q) (a_int s).
(** Src/AttiAhrs.cpp:112-114 SetAtti(quaternion): Cnb is left as it is *)
Definition ahrs_set_quat (s : ahrs) (q : quat) : ahrs := Ah (a_ts s) q (a_Cnb s) (a_int s).

(** Src/AttiAhrs.cpp:86-102 Update(imu) *)
Definition ahrs_imu (s : ahrs) (x : imu) : ahrs := ahrs_update s (i_gyro x) (i_acce x).
(** Src/AttiAhrs.cpp:108-110 GetAtti *)
Definition ahrs_atti (s : ahrs) : euler := dcm_to_euler (a_Cnb s).

(** the calls a client can make *)
Inductive ahrs_op := OpEuler (e : vec) | OpQuat (q : quat) | OpImu (x : imu).
(** one call (Src/AttiAhrs.cpp, the functions named in [ahrs_op]) *)
Definition ahrs_do (s : ahrs) (o : ahrs_op) : ahrs :=
  match o with OpEuler e => ahrs_set_euler s e | OpQuat q => ahrs_set_quat s q | OpImu x => ahrs_imu s x end.
(** the calls in sequence *)
Definition ahrs_run (s : ahrs) (ops : list ahrs_op) : ahrs := fold_left ahrs_do ops s.
