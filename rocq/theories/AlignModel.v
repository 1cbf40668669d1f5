(** Src/Alignment.{h,cpp}: AlignMoving, over the reals. RGIOE_ENABLE_DOUBLE_ANTENNA = 0 and ENABLE_FUSION_RECORDER = 0
    as shipped (Inc/RgioeConfig.h:43-50). The member ahrs is updated but never read (it cannot reach any output) and is
    left out, as are acc_pre and gpst_pre, which are neither written nor read. *)
From Coq Require Import Reals ZArith List Bool.
From Verif Require Import RealMath EarthModel ConvertModel SmoothModel InsModel FusionBase.
Import ListNotations.
Open Scope R_scope.

(** Src/Alignment.h:60-71 members. [l_nav = None]: some number in nav is an infinity or a NaN. The flags, the detector
    and the time do not depend on nav. *)
Record align := Al {
  l_nav : option navepoch; l_gpst : R; l_level : bool; l_yaw : bool;
  l_smooth : smooth; l_pre : gnss; l_opt : option_t; l_vpre : vec }.

(** Src/Alignment.cpp:167: smooth{1e-3, 200, 30} *)
Definition align_smooth : smooth := smooth_new (1 / 1000) 200 30.
(** Src/Alignment.cpp:198 gnss_pre = {0} *)
Definition gnss_none : gnss := Gnss 0 0 0 vzero 0 0.

(** Src/Alignment.cpp:165-202 constructor. vn_pre is not initialised: [junk] is what the memory holds. *)
Definition align_new (junk : vec) (o : option_t) : align :=
  let n := make_nav 0 vzero vzero vzero in
  Al (Some (Nav (n_gpst n) (n_pos n) (n_vn n) (n_atti n) (n_dvn n) (n_vf n) (n_Cbn n) (n_Cne n) (n_Qbn n) (n_Qne n)
        (n_gb n) (n_ab n) (n_gs n) (n_as n) (n_pos_std n) (n_vel_std n) (n_att_std n)
        (o_odo_scale o) SENSOR_IMU MODE_INVALID 0))
     0 false false align_smooth gnss_none o junk.

(** Src/Alignment.cpp:262-265 SetOption *)
Definition align_option (a : align) (o : option_t) : align :=
  Al (l_nav a) (l_gpst a) (l_level a) (l_yaw a) (l_smooth a) (l_pre a) o (l_vpre a).

(** Eigen Vector3d::normalized: the argument itself when its squared norm is not positive *)
Definition vnormalized (v : vec) : vec := if Rlt_dec 0 (dot v v) then vdiv v (sqrt (dot v v)) else v.

(** a NavEpoch with another attitude and gyroscope bias *)
Definition nav_level (n : navepoch) (t : R) (e : vec) (gb : vec) : navepoch :=
  Nav t (n_pos n) (n_vn n) (eu_of e) (n_dvn n) (n_vf n) (euler_to_dcm e) (n_Cne n) (euler_to_quaternion e) (n_Qne n)
      gb (n_ab n) (n_gs n) (n_as n) (n_pos_std n) (n_vel_std n) (n_att_std n) (n_kd n) (n_sensors n) (n_gnss_mode n) (n_week n).

(** Src/Alignment.cpp:30-36: the averaged specific force after removing bias and scale factor *)
Definition level_force (o : option_t) (ave : imu) : vec :=
  let dt := 1 / o_rate o in
  mvec (msub eye (mdiag (o_as_ini o))) (vsub (i_acce ave) (vscale dt (o_ab_ini o))).
(** Src/Alignment.cpp:39-41 *)
Definition level_roll (vm : vec) : R := asin (vy vm) * (if Rlt_dec 0 (vz vm) then 1 else -1).
(** Src/Alignment.cpp:41 atti[1] *)
Definition level_pitch (vm : vec) : R := - asin (vx vm) * (if Rlt_dec 0 (vz vm) then 1 else -1).

(** Src/Alignment.cpp:18-61 Update(imu). [None]: a counter of the detector overflows. The division 1.0 / d_rate gives an
    infinity for d_rate = 0. The heading that is already in nav is kept. *)
Definition align_imu (a : align) (x : imu) : option align :=
  match smooth_update (l_smooth a) x with
  | None => None
  | Some sm =>
    let o := l_opt a in
    let a1 := Al (match l_nav a with Some n => Some (nav_time n (i_gpst x)) | None => None end) (i_gpst x)
                 (l_level a) (l_yaw a) sm (l_pre a) o (l_vpre a) in
    if l_level a then Some a1
    else if is_static sm then
      let vm := vnormalized (level_force o (s_ave sm)) in
      let nav := if is_zero (o_rate o) then None else
        match l_nav a with
        | Some n => Some (nav_level n (i_gpst x) (V (level_roll vm) (level_pitch vm) (e_heading (n_atti n)))
                            (vscale (o_rate o) (i_gyro (s_ave sm))))
        | None => None
        end in
      Some (Al nav (i_gpst x) true (l_yaw a) sm (l_pre a) o (l_vpre a))
    else Some a1
  end.

(** finite Euler angles *)
Definition euler_vec (e : euler) : option vec :=
  match e with Eu (Fin r) (Fin p) h => Some (V r p h) | _ => None end.

(** Src/Alignment.cpp:82-87 *)
Definition align_step (pre g : gnss) : vec :=
  distance6 (g_lat g * deg) (g_lon g * deg) (g_lat pre * deg) (g_lon pre * deg) (g_height g) (g_height pre).
(** Src/Alignment.cpp:88,92 *)
Definition align_moving (o : option_t) (pre g : gnss) : bool :=
  let v := vnorm (align_step pre g) in
  (if Rlt_dec (o_align_vel o) v then true else false) && (if Rlt_dec v 1000 then true else false).

(** Src/Alignment.cpp:89-102: velocity and heading from the displacement; lines 96-98 are overwritten later *)
Definition align_heading (n : navepoch) (vpre : vec) (pre g : gnss) : option navepoch :=
  let vn_cur := align_step pre g in
  let dgpst := g_gpst g - g_gpst pre in
  if is_zero dgpst then None else
  let acce := vdiv (vsub vn_cur vpre) dgpst in
  let vn := vadd vn_cur (vdiv (vscale dgpst acce) 2) in
  match euler_vec (n_atti n) with
  | Some e0 =>
    let e := V (vx e0) (vy e0) (atan2 (vy vn) (vx vn)) in
    let s := 3 / 10 in
    Some (Nav (n_gpst n) (n_pos n) vn (eu_of e) (n_dvn n) (n_vf n) (euler_to_dcm e) (n_Cne n) (euler_to_quaternion e) (n_Qne n)
            (n_gb n) (n_ab n) (n_gs n) (n_as n) (n_pos_std n) (V s s s) (n_att_std n) (n_kd n) (n_sensors n) (n_gnss_mode n) (n_week n))
  | None => None
  end.

(** Src/Alignment.cpp:123-124: rotation by the installation angle about the down axis *)
Definition align_Cbv (o : option_t) : mat := euler_to_dcm (V 0 0 (vz (o_angle_bv o))).
(** Src/Alignment.cpp:107-121: the place of the unit from the place of the antenna *)
Definition align_place (C : mat) (lb : vec) (g : gnss) : vec :=
  let lat := g_lat g * deg in let lon := g_lon g * deg in let h := g_height g in
  let l := mvec C lb in
  V (lat - 1 / (RM lat + h) * vx l) (lon - 1 / ((RN lat + h) * cos lat) * vy l) (h - -1 * vz l).

(** Src/Alignment.cpp:106-146 *)
Definition align_finish (o : option_t) (n : navepoch) (pre g : gnss) : option navepoch :=
  if negb (rates_defined (V (g_lat g * deg) (g_lon g * deg) (g_height g))) then None else
  if is_zero (vx (g_std g)) || is_zero (vy (g_std g)) || is_zero (vz (g_std g)) then None else
  let pos := align_place (n_Cbn n) (o_lb_gnss o) g in
  let C := mmul (n_Cbn n) (align_Cbv o) in
  match euler_vec (dcm_to_euler C) with
  | Some e =>
    let vs := n_vel_std n in let gs := g_std g in
    Some (Nav (g_gpst g) pos (n_vn n) (eu_of e) vzero vzero C (lla_to_cne (vx pos) (vy pos)) (euler_to_quaternion e)
            (lla_to_qne (vx pos) (vy pos)) (o_gb_ini o) (o_ab_ini o) (o_gs_ini o) (o_as_ini o)
            gs (vadd gs (g_std pre)) (V (vx vs / vx gs) (vy vs / vy gs) (vz vs / vz gs))
            (o_odo_scale o) (SENSOR_GNSS + SENSOR_IMU) (Z.to_nat (g_mode g mod 65536)) (n_week n))
  | None => None
  end.

(** Src/Alignment.cpp:63-163 Update(gnss) *)
Definition align_gnss (a : align) (g : gnss) : align :=
  let pre := l_pre a in let o := l_opt a in
  if is_zero (vx (g_std pre)) then
    Al (l_nav a) (l_gpst a) (l_level a) (l_yaw a) (l_smooth a) g o (l_vpre a)
  else
    let fast := align_moving o pre g in
    let nav1 := if fast then bind (l_nav a) (fun n => align_heading n (l_vpre a) pre g) else l_nav a in
    Al (bind nav1 (fun n => align_finish o n pre g)) (g_gpst g) (l_level a) (l_yaw a || fast) (l_smooth a) g o
       (align_step pre g).

(** what the alignment is fed with *)
Inductive align_call := AlImu (x : imu) | AlGnss (g : gnss).
(** one call: Src/Alignment.cpp Update(imu) or Update(gnss) *)
Definition align_do (a : align) (c : align_call) : option align :=
  match c with AlImu x => align_imu a x | AlGnss g => Some (align_gnss a g) end.
(** the calls in sequence; [None] as soon as one of them is undefined *)
Fixpoint align_run (a : align) (cs : list align_call) : option align :=
  match cs with [] => Some a | c :: r => bind (align_do a c) (fun b => align_run b r) end.
