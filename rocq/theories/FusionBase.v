(** Src/DataFusion.{h,cpp}: the parts of the filter that need only three-vectors and 3x3 matrices.  Over the reals.
    Configuration as shipped (Src/RgioeDefine.h): fifteen states, no RTS, no recorder in the filter. *)
From Coq Require Import Reals ZArith.
From Verif Require Import RealMath EarthModel ConvertModel SmoothModel InsModel.
Open Scope R_scope.

(** Src/RgioeDataType.h:101-113 ImuPara and 155-182 RgioeOption, the members the filter and the alignment read.
    The int members used as truth values are booleans. *)
Record option_t := Opt {
  o_arw : R; o_vrw : R; o_ab_ini : vec; o_gb_ini : vec; o_as_ini : vec; o_gs_ini : vec;
  o_ab_std : vec; o_gb_std : vec; o_at_corr : R; o_gt_corr : R;
  o_rate : R; o_align_mode : Z; o_align_vel : R;
  o_lb_gnss : vec; o_gnss_scale : R;
  o_nhc : bool; o_nhc_std0 : R; o_nhc_std1 : R;
  o_zupt : bool; o_zupt_std : R; o_zupta : bool; o_zupta_std : R;
  o_odo : bool; o_odo_std : R; o_odo_scale : R; o_lb_wheel : vec; o_angle_bv : vec;
  o_pos_std : vec; o_vel_std : vec; o_att_std : vec;
  o_project : bool; o_pos_project : vec; o_att_project : vec }.

(** Src/RgioeDataType.h:86-99 RgioeGnssData, the members that are read *)
Record gnss := Gnss { g_lat : R; g_lon : R; g_height : R; g_std : vec; g_gpst : R; g_mode : Z }.

(** Src/RgioeDataType.h:15 _deg *)
Definition deg : R := PI / 180.

(** division by this value gives an infinity or a NaN *)
Definition is_zero (x : R) : bool := if Req_EM_T x 0 then true else false.

(** Src/RgioeDataType.h:33-43 *)
Definition SENSOR_IMU : nat := 1.
(** Src/RgioeDataType.h:33-43 SENSOR_GNSS *)
Definition SENSOR_GNSS : nat := 2.
(** Src/RgioeDataType.h:33-43 SENSOR_ODO *)
Definition SENSOR_ODO : nat := 4.
(** Src/RgioeDataType.h:33-43 SENSOR_ZUPT *)
Definition SENSOR_ZUPT : nat := 8.
(** Src/RgioeDataType.h:33-43 SENSOR_NHC *)
Definition SENSOR_NHC : nat := 16.
(** Src/RgioeDataType.h:33-43 SENSOR_HEIGHT *)
Definition SENSOR_HEIGHT : nat := 128.

(** Src/DataFusion.cpp:234-236 GnssCheck: SPP, RTK_DGPS, RTK_FIX, RTK_FLOAT (Src/RgioeDataType.h:62-72) *)
Definition gnss_check (g : gnss) : bool :=
  ((g_mode g =? 1) || (g_mode g =? 2) || (g_mode g =? 4) || (g_mode g =? 5))%Z%bool.
(** Src/RgioeDataType.h:69 INVALID *)
Definition MODE_INVALID : nat := 6.

(** entry (i, j) of a 3x3 matrix *)
Definition entry (m : mat) (i j : nat) : R :=
  match i, j with
  | 0, 0 => m00 m | 0, 1 => m01 m | 0, 2 => m02 m
  | 1, 0 => m10 m | 1, 1 => m11 m | 1, 2 => m12 m
  | 2, 0 => m20 m | 2, 1 => m21 m | 2, 2 => m22 m
  | _, _ => 0%R
  end%nat.
(** Eigen: Mat3d::Zero() *)
Definition mzero : mat := M 0 0 0 0 0 0 0 0 0.
(** Eigen: v[i] *)
Definition coord (v : vec) (i : nat) : R := match i with 0%nat => vx v | 1%nat => vy v | _ => vz v end.

(** Src/DataFusion.cpp:302-341 TransferMatrix: block (r, c) of the 3x3 blocks, r and c from 0 to 4.
    [None] in [transfer_defined] below when a denominator is zero. *)
Definition phi_block (i : ins) (gt_corr at_corr : R) (r c : nat) : mat :=
  let nav := s_nav i in let dt := s_dt i in let g := s_g i in
  let rm := RM (vx (n_pos nav)) in let rn := RN (vx (n_pos nav)) in let h := vz (n_pos nav) in
  match r, c with
  | 0, 0 => msub eye (mscale dt (skew (s_wen i)))
  | 0, 1 => mscale dt eye
  | 1, 0 => mscale dt (mdiag (V (- g / (rm + h)) (- g / (rn + h)) (2 * g / (sqrt (rm * rn) + h))))
  | 1, 1 => msub eye (mscale dt (skew (vadd (s_wen i) (vscale 2 (s_wie i)))))
  | 1, 2 => mscale dt (skew (n_vf nav))
  | 2, 2 => msub eye (mscale dt (skew (vadd (s_wen i) (s_wie i))))
  | 1, 4 => mscale dt (n_Cbn nav)
  | 2, 3 => mscale dt (mscale (-1) (n_Cbn nav))
  | 3, 3 => msub eye (mscale (dt / gt_corr) eye)
  | 4, 4 => msub eye (mscale (dt / at_corr) eye)
  | _, _ => mzero
  end%nat.
(** Src/DataFusion.cpp:302-341: no denominator of TransferMatrix is zero *)
Definition transfer_defined (i : ins) (gt_corr at_corr : R) : bool :=
  let nav := s_nav i in
  let rm := RM (vx (n_pos nav)) in let rn := RN (vx (n_pos nav)) in let h := vz (n_pos nav) in
  negb (is_zero (rm + h) || is_zero (rn + h) || is_zero (sqrt (rm * rn) + h) || is_zero gt_corr || is_zero at_corr).

(** Src/DataFusion.cpp:29-44: the diagonal of P before it is squared (line 66) *)
Definition std_diag (nav : navepoch) (o : option_t) (b : nat) : vec :=
  match b with
  | 0 => n_pos_std nav | 1 => n_vel_std nav | 2 => n_att_std nav | 3 => o_gb_std o | _ => o_ab_std o
  end%nat.
(** Src/DataFusion.cpp:67-82: the diagonal of Q0 *)
Definition Q0_diag (o : option_t) (b : nat) : vec :=
  let sq v k := V (2 * vx v * vx v / k) (2 * vy v * vy v / k) (2 * vz v * vz v / k) in
  match b with
  | 0 => vzero
  | 1 => let q := (o_vrw o * o_vrw o)%R in V q q q
  | 2 => let q := (o_arw o * o_arw o)%R in V q q q
  | 3 => sq (o_gb_std o) (o_gt_corr o)
  | _ => sq (o_ab_std o) (o_at_corr o)
  end%nat.

(** Src/DataFusion.cpp:386-391 _posH: blocks of the three rows *)
Definition pos_h (i : ins) (lb : vec) (c : nat) : mat :=
  match c with
  | 0 => eye
  | 2 => skew (mvec (n_Cbn (s_nav i)) lb)
  | _ => mzero
  end%nat.
(** Src/DataFusion.cpp:423-429 _posZ *)
Definition pos_z (i : ins) (lb pos : vec) : vec :=
  let nav := s_nav i in
  vadd (mvec (mtrans (n_Cne nav)) (vsub (lla_to_xyz (n_pos nav)) (lla_to_xyz pos))) (mvec (n_Cbn nav) lb).

(** Src/DataFusion.cpp:29-111 line 110: Cbv *)
Definition Cbv (o : option_t) : mat := euler_to_dcm (o_angle_bv o).
(** Src/DataFusion.cpp:269-272 and 432-435: the velocity of the wheel in the vehicle frame *)
Definition wheel_velocity (i : ins) (o : option_t) : vec :=
  let nav := s_nav i in
  let Cnv := mmul (Cbv o) (mtrans (n_Cbn nav)) in
  let w_ib := vscale (o_rate o) (s_gyro_pre i) in
  let w_nb_b := vsub w_ib (mvec (mtrans (n_Cbn nav)) (vadd (s_wie i) (s_wen i))) in
  vadd (mvec Cnv (n_vn nav)) (mvec (Cbv o) (cross w_nb_b (o_lb_wheel o))).
(** Src/DataFusion.cpp:273-276 and 436-439: blocks of the three rows of H3 *)
Definition vel_h (i : ins) (o : option_t) (c : nat) : mat :=
  let nav := s_nav i in
  let Cnv := mmul (Cbv o) (mtrans (n_Cbn nav)) in
  match c with
  | 1 => Cnv
  | 2 => mmul (mscale (-1) Cnv) (skew (n_vn nav))
  | 3 => mmul (mscale (-1) (Cbv o)) (skew (o_lb_wheel o))
  | _ => mzero
  end%nat.
(** Src/DataFusion.cpp:450-453: blocks of H for the zero velocity *)
Definition zupt_h (c : nat) : mat := match c with 1%nat => eye | _ => mzero end.

(** Src/DataFusion.cpp:576-620 Monitor: uint32_t counters *)
Definition u32 (x : Z) : Z := (x mod 4294967296)%Z.
(** Src/DataFusion.cpp:600-608 GetMaxIntegrateIter *)
Definition max_iter (no_update_cnt_min : Z) : Z := if (1000 <? no_update_cnt_min)%Z then 1000%Z else 1%Z.

(** setters of the mechanisation record *)
Definition ins_nav (i : ins) (n : navepoch) : ins :=
  Ins n (s_dt i) (s_acce_pre i) (s_gyro_pre i) (s_wen i) (s_wie i) (s_vn_mid i) (s_pos_mid i) (s_g i).
(** assignment to nav.kd *)
Definition nav_kd (n : navepoch) (kd : R) : navepoch :=
  Nav (n_gpst n) (n_pos n) (n_vn n) (n_atti n) (n_dvn n) (n_vf n) (n_Cbn n) (n_Cne n) (n_Qbn n) (n_Qne n)
      (n_gb n) (n_ab n) (n_gs n) (n_as n) (n_pos_std n) (n_vel_std n) (n_att_std n) kd (n_sensors n) (n_gnss_mode n) (n_week n).
(** Src/DataFusion.cpp: nav.info.sensors |= bit *)
Definition sensors_set (i : ins) (bit : nat) : ins :=
  ins_nav i (nav_info (s_nav i) (Nat.lor (n_sensors (s_nav i)) bit) (n_gnss_mode (s_nav i))).
(** Src/DataFusion.cpp: nav.info.sensors &= ~bit *)
Definition sensors_clear (i : ins) (bit : nat) : ins :=
  ins_nav i (nav_info (s_nav i) (Nat.ldiff (n_sensors (s_nav i)) bit) (n_gnss_mode (s_nav i))).
(** Src/DataFusion.cpp: assignment to nav.info.gnss_mode *)
Definition mode_set (i : ins) (mode : nat) : ins :=
  ins_nav i (nav_info (s_nav i) (n_sensors (s_nav i)) mode).

Lemma real_fact13 a1 a2 a3 a4 a5 a6 a7 a8 a9 : skew (mvec (M a1 a2 a3 a4 a5 a6 a7 a8 a9) vzero) = mzero.
Proof. unfold skew, mvec, vzero, mzero; simpl; apply mat_ext; simpl; ring. Qed.
