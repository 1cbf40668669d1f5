(** Src/Convert.cpp: conversions between attitude and position representations, over the reals.
    The double and single precision variants of a function are the same function here. *)
From Coq Require Import Reals.
From Verif Require Import RealMath EarthModel.
Open Scope R_scope.

(** Src/Convert.cpp:18-45 (and 46-73) rv_to_quaternion *)
Definition rv_to_quaternion (v : vec) : quat :=
  let mag2 := vx v * vx v + vy v * vy v + vz v * vz v in
  if Rlt_dec mag2 (PI * PI) then
    let m := mag2 * (1 / 4) in
    let cs := 1 - m / 2 * (1 - m / 12 * (1 - m / 30)) in
    let sn := 1 - m / 6 * (1 - m / 20 * (1 - m / 42)) in
    Q cs (1 / 2 * sn * vx v) (1 / 2 * sn * vy v) (1 / 2 * sn * vz v)
  else
    let mag := sqrt mag2 in
    let s_mag := sin (mag / 2) in
    if Rlt_dec (cos (mag / 2)) 0
    then Q (- cos (mag / 2)) (- vx v * s_mag / mag) (- vy v * s_mag / mag) (- vz v * s_mag / mag)
    else Q (cos (mag / 2)) (vx v * s_mag / mag) (vy v * s_mag / mag) (vz v * s_mag / mag).

(** Src/Convert.cpp:83-93 skew *)
Definition skew (v : vec) : mat := M 0 (- vz v) (vy v) (vz v) 0 (- vx v) (- vy v) (vx v) 0.

(** Src/Convert.cpp:96-104 rv_to_DCM; None is the division 0/0 the code performs for the zero vector *)
Definition rv_to_DCM (v : vec) : option mat :=
  let norm := vx v * vx v + vy v * vy v + vz v * vz v in
  let s_qrt := sqrt norm in
  let sk := skew v in
  if Req_EM_T norm 0 then None
  else Some (madd (madd eye (mscale (sin s_qrt / s_qrt) sk)) (mmul (mscale ((1 - cos s_qrt) / norm) sk) sk)).

(** Src/Convert.cpp:106-108 quaternion_to_dcm: Mat3d(q), Eigen's Quaternion::toRotationMatrix *)
Definition quaternion_to_dcm (q : quat) : mat :=
  let tx := 2 * qx q in let ty := 2 * qy q in let tz := 2 * qz q in
  let twx := tx * qw q in let twy := ty * qw q in let twz := tz * qw q in
  let txx := tx * qx q in let txy := ty * qx q in let txz := tz * qx q in
  let tyy := ty * qy q in let tyz := tz * qy q in let tzz := tz * qz q in
  M (1 - (tyy + tzz)) (txy - twz) (txz + twy)
    (txy + twz) (1 - (txx + tzz)) (tyz - twx)
    (txz - twy) (tyz + twx) (1 - (txx + tyy)).

(** Src/RgioeDataType.h LatLon *)
Record latlon := LL { latitude : num; longitude : R }.
(** Src/Convert.cpp:110-116 qne_to_lla *)
Definition qne_to_lla (q : quat) : latlon :=
  let a := xatan (xdiv (qy q) (qw q)) in
  let b := atan2 (qz q) (qw q) in
  LL (xaffine (- (1 / 2) * PI) (-2) a) (2 * b).

(** the Euler angles returned by dcm_to_euler *)
Record euler := Eu { e_roll : num; e_pitch : num; e_heading : R }.
(** Src/Convert.cpp:118-133 dcm_to_euler *)
Definition dcm_to_euler (c : mat) : euler :=
  let pitch := xatan (xdiv (- m20 c) (sqrt (m21 c * m21 c + m22 c * m22 c))) in
  if Rle_dec (m20 c) (- (999 / 1000)) then
    Eu NaN pitch (atan2 (m12 c - m01 c) (m02 c + m11 c))
  else if Rle_dec (999 / 1000) (m20 c) then
    Eu NaN pitch (atan2 (m12 c + m01 c) (m02 c + m11 c) + PI)
  else
    Eu (Fin (atan2 (m21 c) (m22 c))) pitch (atan2 (m10 c) (m00 c)).

(** Src/Convert.cpp:135-146 euler_to_quaternion; the argument is (roll, pitch, heading) *)
Definition euler_to_quaternion (e : vec) : quat :=
  let roll := vx e in let pitch := vy e in let heading := vz e in
  Q (cos (roll / 2) * cos (pitch / 2) * cos (heading / 2) + sin (roll / 2) * sin (pitch / 2) * sin (heading / 2))
    (sin (roll / 2) * cos (pitch / 2) * cos (heading / 2) - cos (roll / 2) * sin (pitch / 2) * sin (heading / 2))
    (cos (roll / 2) * sin (pitch / 2) * cos (heading / 2) + sin (roll / 2) * cos (pitch / 2) * sin (heading / 2))
    (cos (roll / 2) * cos (pitch / 2) * sin (heading / 2) - sin (roll / 2) * sin (pitch / 2) * cos (heading / 2)).

(** Src/Convert.cpp:149-162 euler_to_dcm *)
Definition euler_to_dcm (e : vec) : mat :=
  let phi := vx e in let theta := vy e in let psi := vz e in
  M (cos theta * cos psi)
    (- cos phi * sin psi + sin phi * sin theta * cos psi)
    (sin phi * sin psi + cos phi * sin theta * cos psi)
    (cos theta * sin psi)
    (cos phi * cos psi + sin phi * sin theta * sin psi)
    (- sin phi * cos psi + cos phi * sin theta * sin psi)
    (- sin theta)
    (sin phi * cos theta)
    (cos phi * cos theta).

(** Src/Convert.cpp:174-182 lla_to_qne *)
Definition lla_to_qne (lat lon : R) : quat :=
  let phi := - (1 / 4) * PI - 1 / 2 * lat in
  let lamda := 1 / 2 * lon in
  Q (cos phi * cos lamda) (- sin phi * sin lamda) (sin phi * cos lamda) (cos phi * sin lamda).

(** Src/Convert.cpp:184-197 lla_to_cne *)
Definition lla_to_cne (lat lon : R) : mat :=
  M (- sin lat * cos lon) (- sin lon) (- cos lat * cos lon)
    (- sin lat * sin lon) (cos lon) (- cos lat * sin lon)
    (cos lat) 0 (- sin lat).

(** Src/Convert.cpp:199-201 gyro_to_rv *)
Definition gyro_to_rv (gyro gyro_pre : vec) : vec := vadd gyro (vdiv (cross gyro_pre gyro) 12).

(** Src/Convert.cpp:203-210 lla_to_xyz *)
Definition lla_to_xyz (lla : vec) : vec :=
  let rn := RN (vx lla) in
  V ((rn + vz lla) * cos (vx lla) * cos (vy lla))
    ((rn + vz lla) * cos (vx lla) * sin (vy lla))
    ((rn * (1 - e2) + vz lla) * sin (vx lla)).
