(** Src/StaticDetect.{h,cpp}: running mean, running variance and static detection. *)
From Coq Require Import Reals ZArith List.
From Verif Require Import RealMath.
Import ListNotations.
Open Scope R_scope.

(** Src/RgioeDataType.h RgioeImuData: time and increments *)
Record imu := Imu { i_gpst : R; i_gyro : vec; i_acce : vec }.

(** Src/StaticDetect.h:15-24 members of IMUSmooth; the counters are C ints, kept as integers *)
Record smooth := Sm {
  s_ave : imu; s_var_gyro : vec; s_var_acce : vec;
  up_cnt : Z; static_cnt : Z;
  s_width : Z; s_threshold : R; static_width : Z;
  is_static : bool }.

(** INT_MAX of a 32 bit int *)
Definition int_max : Z := (2 ^ 31 - 1)%Z.

(** Src/StaticDetect.cpp:74-80 constructor with threshold, static width and window; imu_ave and imu_var are
    value-initialised (StaticDetect.h:15-16) *)
Definition smooth_new (threshold : R) (swidth window : Z) : smooth :=
  Sm (Imu 0 vzero vzero) vzero vzero 0 0 window threshold swidth false.

(** Src/StaticDetect.cpp:26,36: (ave * (n - 1) + x) / n on one axis *)
Definition blend (n : Z) (ave x : R) : R := (ave * (IZR n - 1) + x) / IZR n.
(** Src/StaticDetect.cpp:26,36 on the three axes *)
Definition vblend (n : Z) (ave x : vec) : vec := V (blend n (vx ave) (vx x)) (blend n (vy ave) (vy x)) (blend n (vz ave) (vz x)).
(** Src/StaticDetect.cpp:29-30: squared deviation from the new mean *)
Definition vdev (x m : vec) : vec :=
  V ((vx x - vx m) * (vx x - vx m)) ((vy x - vy m) * (vy x - vy m)) ((vz x - vz m) * (vz x - vz m)).

(** Src/StaticDetect.cpp:66-68 getStd; sqrtf is the exact square root *)
Definition spread_of (var_acce : vec) : R := sqrt (vx var_acce + vy var_acce + vz var_acce).
(** Src/StaticDetect.cpp:66-68 getStd *)
Definition get_std (s : smooth) : R := spread_of (s_var_acce s).

(** Src/StaticDetect.cpp:22-56 Update. [None]: the increment of one of the int counters overflows,
    which is undefined behaviour. imu_pre (line 55) is never read and left out. *)
Definition smooth_update (s : smooth) (x : imu) : option smooth :=
  let cnt := (up_cnt s + 1)%Z in
  if (int_max <? cnt)%Z then None else
  let n := if (cnt <? s_width s)%Z then cnt else s_width s in
  let acce := vblend n (i_acce (s_ave s)) (i_acce x) in
  let gyro := vblend n (i_gyro (s_ave s)) (i_gyro x) in
  let vacce := vblend n (s_var_acce s) (vdev (i_acce x) acce) in
  let vgyro := vblend n (s_var_gyro s) (vdev (i_gyro x) gyro) in
  if Rlt_dec (s_threshold s) (spread_of vacce) then
    Some (Sm (Imu (i_gpst x) gyro acce) vgyro vacce cnt 0 (s_width s) (s_threshold s) (static_width s)
             (static_width s <? 0)%Z)
  else
    let c := (static_cnt s + 1)%Z in
    if (int_max <? c)%Z then None else
    Some (Sm (Imu (i_gpst x) gyro acce) vgyro vacce cnt c (s_width s) (s_threshold s) (static_width s)
             (static_width s <? c)%Z).

(** a history of samples, oldest first *)
Fixpoint smooth_run (s : smooth) (h : list imu) : option smooth :=
  match h with
  | [] => Some s
  | x :: r => match smooth_update s x with Some s' => smooth_run s' r | None => None end
  end.
