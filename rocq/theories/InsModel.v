(** Src/InsCore.{h,cpp}: strapdown mechanisation, and DataFusion::_feedBack (Src/DataFusion.cpp:347-384), which
    only touches the navigation state.  Over the reals.  [None] stands for a navigation state that contains an
    infinity or a NaN: the C code goes on computing with it, and every later value is NaN as well. *)
From Coq Require Import Reals List.
From Verif Require Import RealMath EarthModel ConvertModel SmoothModel.
Import ListNotations.
Open Scope R_scope.

(** Src/InsCore.h:17-45 NavEpoch; the standard deviations, kd, info and week are carried along *)
Record navepoch := Nav {
  n_gpst : R;
  n_pos : vec; n_vn : vec; n_atti : euler;
  n_dvn : vec; n_vf : vec;
  n_Cbn : mat; n_Cne : mat; n_Qbn : quat; n_Qne : quat;
  n_gb : vec; n_ab : vec; n_gs : vec; n_as : vec;
  n_pos_std : vec; n_vel_std : vec; n_att_std : vec;
  n_kd : R; n_sensors : nat; n_gnss_mode : nat; n_week : nat }.

(** a vector of finite Euler angles as an [euler] *)
Definition eu_of (e : vec) : euler := Eu (Fin (vx e)) (Fin (vy e)) (vz e).

(** Src/InsCore.cpp:13-30 makeNavEpoch(gpst, pos, vn, atti). The aggregate initialiser stops after four bias
    vectors, the remaining members are zero. *)
Definition make_nav (gpst : R) (pos vn atti : vec) : navepoch :=
  Nav gpst pos vn (eu_of atti) vzero vzero
      (euler_to_dcm atti) (lla_to_cne (vx pos) (vy pos)) (euler_to_quaternion atti) (lla_to_qne (vx pos) (vy pos))
      vzero vzero vzero vzero vzero vzero vzero 0 0 0 0.

(** Src/InsCore.h:53-66 members of Ins; g is the member of the Earth singleton (Earth.h:44) *)
Record ins := Ins {
  s_nav : navepoch; s_dt : R; s_acce_pre : vec; s_gyro_pre : vec;
  s_wen : vec; s_wie : vec; s_vn_mid : vec; s_pos_mid : vec; s_g : R }.

(** Src/InsCore.cpp:161-169 InitializePva(nav, d_rate); members that are not assigned keep their values *)
Definition init_pva (s : ins) (nav : navepoch) (d_rate : R) : ins :=
  Ins nav (1 / d_rate) vzero vzero (s_wen s) (s_wie s) (s_vn_mid s) (s_pos_mid s)
      (gravity (vx (n_pos nav)) (vz (n_pos nav))).

(** omega_en_n is finite: no division by zero and no tangent of a right angle *)
Definition rates_defined (pos : vec) : bool :=
  if Req_EM_T (cos (vx pos)) 0 then false
  else if Req_EM_T (RN (vx pos) + vz pos) 0 then false
  else if Req_EM_T (RM (vx pos) + vz pos) 0 then false else true.
(** Src/Earth.h, Earth.cpp omega_en_n, as called in Src/InsCore.cpp:71,96; [None]: not finite *)
Definition wen_opt (vn pos : vec) : option vec := if rates_defined pos then Some (omega_en_n vn pos) else None.
(** Src/Convert.cpp qne_to_lla; [None]: not finite *)
Definition lla_opt (q : quat) : option (R * R) :=
  match latitude (qne_to_lla q) with Fin l => Some (l, longitude (qne_to_lla q)) | _ => None end.

(** the rest of a function is meaningless behind an undefined value *)
Definition bind {A B} (o : option A) (f : A -> option B) : option B := match o with Some a => f a | None => None end.

(** Src/InsCore.cpp:180-199 _extrapolate: omega_en_n, omega_ie_n, vn_mid, pos_mid and g *)
Definition extrapolate (s : ins) : option ins :=
  let nav := s_nav s in
  bind (wen_opt (n_vn nav) (n_pos nav)) (fun wen0 =>
  let wie0 := omega_ie_n (vx (n_pos nav)) in
  let vn_mid := vadd (n_vn nav) (vscale (1 / 2) (n_dvn nav)) in
  let h_mid := vz (n_pos nav) - vz (n_vn nav) * s_dt s / 2 in
  let zeta_mid := vdiv (vscale (s_dt s) (vadd wie0 wen0)) 2 in
  let epsilon_mid := vdiv (vscale (s_dt s) omega_ie_e) 2 in
  let q_nn := rv_to_quaternion zeta_mid in
  let q_ee := qconj (rv_to_quaternion epsilon_mid) in
  let q_mid := qmul (qmul q_ee (n_Qne nav)) q_nn in
  bind (lla_opt (qnormalized q_mid)) (fun ll =>
  let pos_mid := V (fst ll) (snd ll) h_mid in
  let g := gravity (fst ll) h_mid in
  bind (wen_opt vn_mid pos_mid) (fun wen =>
  Some (Ins nav (s_dt s) (s_acce_pre s) (s_gyro_pre s) wen (omega_ie_n (fst ll)) vn_mid pos_mid g)))).

(** updates of single members of the navigation state *)
Definition nav_vel (n : navepoch) (vn dvn vf : vec) : navepoch :=
  Nav (n_gpst n) (n_pos n) vn (n_atti n) dvn vf (n_Cbn n) (n_Cne n) (n_Qbn n) (n_Qne n)
      (n_gb n) (n_ab n) (n_gs n) (n_as n) (n_pos_std n) (n_vel_std n) (n_att_std n) (n_kd n) (n_sensors n) (n_gnss_mode n) (n_week n).
(** Src/InsCore.cpp: assignment to pos, Qne, Cne of nav *)
Definition nav_place (n : navepoch) (pos : vec) (Qne : quat) (Cne : mat) : navepoch :=
  Nav (n_gpst n) pos (n_vn n) (n_atti n) (n_dvn n) (n_vf n) (n_Cbn n) Cne (n_Qbn n) Qne
      (n_gb n) (n_ab n) (n_gs n) (n_as n) (n_pos_std n) (n_vel_std n) (n_att_std n) (n_kd n) (n_sensors n) (n_gnss_mode n) (n_week n).
(** Src/InsCore.cpp: assignment to Qbn, Cbn, atti of nav *)
Definition nav_turn (n : navepoch) (Qbn : quat) (Cbn : mat) (atti : euler) : navepoch :=
  Nav (n_gpst n) (n_pos n) (n_vn n) atti (n_dvn n) (n_vf n) Cbn (n_Cne n) Qbn (n_Qne n)
      (n_gb n) (n_ab n) (n_gs n) (n_as n) (n_pos_std n) (n_vel_std n) (n_att_std n) (n_kd n) (n_sensors n) (n_gnss_mode n) (n_week n).
(** Src/InsCore.cpp: assignment to gpst of nav *)
Definition nav_time (n : navepoch) (t : R) : navepoch :=
  Nav t (n_pos n) (n_vn n) (n_atti n) (n_dvn n) (n_vf n) (n_Cbn n) (n_Cne n) (n_Qbn n) (n_Qne n)
      (n_gb n) (n_ab n) (n_gs n) (n_as n) (n_pos_std n) (n_vel_std n) (n_att_std n) (n_kd n) (n_sensors n) (n_gnss_mode n) (n_week n).
(** Src/DataFusion.cpp _feedBack: assignment to gb, ab of nav *)
Definition nav_bias (n : navepoch) (gb ab : vec) : navepoch :=
  Nav (n_gpst n) (n_pos n) (n_vn n) (n_atti n) (n_dvn n) (n_vf n) (n_Cbn n) (n_Cne n) (n_Qbn n) (n_Qne n)
      gb ab (n_gs n) (n_as n) (n_pos_std n) (n_vel_std n) (n_att_std n) (n_kd n) (n_sensors n) (n_gnss_mode n) (n_week n).
(** Src/DataFusion.cpp: assignment to info of nav *)
Definition nav_info (n : navepoch) (sensors mode : nat) : navepoch :=
  Nav (n_gpst n) (n_pos n) (n_vn n) (n_atti n) (n_dvn n) (n_vf n) (n_Cbn n) (n_Cne n) (n_Qbn n) (n_Qne n)
      (n_gb n) (n_ab n) (n_gs n) (n_as n) (n_pos_std n) (n_vel_std n) (n_att_std n) (n_kd n) sensors mode (n_week n).

(** Src/InsCore.cpp:61-73 _velocity_update; [None] also when dt is zero (line 70 divides by it) *)
Definition velocity_update (s : ins) (acce gyro : vec) : option ins :=
  let nav := s_nav s in
  let gn := V 0 0 (s_g s) in
  let v_g_cor := vscale (s_dt s) (vsub gn (cross (vadd (vscale 2 (s_wie s)) (s_wen s)) (n_vn nav))) in
  let zeta_mid := vscale (s_dt s) (vadd (s_wen s) (s_wie s)) in
  let vf1 := vadd (vadd acce (vscale (1 / 2) (cross gyro acce)))
                  (vdiv (vadd (cross (s_gyro_pre s) acce) (cross (s_acce_pre s) gyro)) 12) in
  let vf := mvec (mmul (msub eye (mscale (1 / 2) (skew zeta_mid))) (n_Cbn nav)) vf1 in
  let dvn := vadd vf v_g_cor in
  let vn_mid := vadd (n_vn nav) (vdiv dvn 2) in
  let vn := vadd (n_vn nav) dvn in
  if Req_EM_T (s_dt s) 0 then None else
  bind (wen_opt vn_mid (s_pos_mid s)) (fun wen =>
  Some (Ins (nav_vel nav vn dvn (vdiv vf (s_dt s))) (s_dt s) (s_acce_pre s) (s_gyro_pre s)
            wen (s_wie s) vn_mid (s_pos_mid s) (s_g s))).

(** Src/InsCore.cpp:75-98 _position_update *)
Definition position_update (s : ins) : option ins :=
  let nav := s_nav s in
  let q_ee := qconj (rv_to_quaternion (vscale (s_dt s) omega_ie_e)) in
  let q_nn := rv_to_quaternion (vscale (s_dt s) (vadd (s_wie s) (s_wen s))) in
  let Qne := qnormalized (qmul (qmul q_ee (n_Qne nav)) q_nn) in
  bind (lla_opt Qne) (fun ll =>
  let h := vz (n_pos nav) - vz (s_vn_mid s) * s_dt s in
  let pos := V (fst ll) (snd ll) h in
  let Cne := lla_to_cne (fst ll) (snd ll) in
  let pos_mid := V (vx pos + 1 / 2 * (vx pos - vx (n_pos nav))) (vy pos + 1 / 2 * (vy pos - vy (n_pos nav)))
                   (1 / 2 * (vz pos + vz (n_pos nav))) in
  bind (wen_opt (s_vn_mid s) pos_mid) (fun wen =>
  Some (Ins (nav_place nav pos Qne Cne) (s_dt s) (s_acce_pre s) (s_gyro_pre s)
            wen (omega_ie_n (vx pos_mid)) (s_vn_mid s) pos_mid (s_g s)))).

(** Src/InsCore.cpp:100-113 _atti_update *)
Definition atti_update (s : ins) (gyro : vec) : ins :=
  let nav := s_nav s in
  let q_bb := rv_to_quaternion (gyro_to_rv gyro (s_gyro_pre s)) in
  let q_nn := qconj (rv_to_quaternion (vscale (s_dt s) (vadd (s_wie s) (s_wen s)))) in
  let Qbn := qnormalized (qmul (qmul q_nn (n_Qbn nav)) q_bb) in
  let Cbn := quaternion_to_dcm Qbn in
  Ins (nav_turn nav Qbn Cbn (dcm_to_euler Cbn)) (s_dt s) (s_acce_pre s) (s_gyro_pre s)
      (s_wen s) (s_wie s) (s_vn_mid s) (s_pos_mid s) (s_g s).

(** Src/InsCore.cpp:133-143 ForwardMechanization(acce, gyro) *)
Definition mechanise (s : ins) (acce gyro : vec) : option ins :=
  bind (extrapolate s) (fun s1 =>
  bind (velocity_update s1 acce gyro) (fun s2 =>
  bind (position_update s2) (fun s3 => Some (atti_update s3 gyro)))).

(** Src/InsCore.cpp:145-148 CompensateIMU *)
Definition compensate (s : ins) (imu bias scale : vec) : vec :=
  mvec (msub eye (mdiag scale)) (vsub imu (vscale (s_dt s) bias)).

(** Src/InsCore.cpp:120-131 ForwardMechanization(imu) *)
Definition forward (s : ins) (x : imu) : option ins :=
  let acce := compensate s (i_acce x) (n_ab (s_nav s)) (n_as (s_nav s)) in
  let gyro := compensate s (i_gyro x) (n_gb (s_nav s)) (n_gs (s_nav s)) in
  bind (mechanise s acce gyro) (fun t =>
  Some (Ins (nav_time (s_nav t) (i_gpst x)) (s_dt t) acce gyro (s_wen t) (s_wie t) (s_vn_mid t) (s_pos_mid t) (s_g t))).

(** an error estimate: the fifteen states in the order of Src/RgioeDefine.h:18-22 *)
Record err := Err { x_pos : vec; x_vel : vec; x_att : vec; x_gb : vec; x_ab : vec }.

(** Src/DataFusion.cpp:347-384 _feedBack for the default fifteen states. Cne is not updated, as in the code. *)
Definition feedback (s : ins) (x : err) : option ins :=
  let nav := s_nav s in
  let lat := vx (n_pos nav) in let h := vz (n_pos nav) in
  let rn := RN lat in let rm := RM lat in
  if rates_defined (n_pos nav) then
    let d := V (vy (x_pos x) / (rn + h)) (- vx (x_pos x) / (rm + h)) (- vy (x_pos x) * tan lat / (rn + h)) in
    let Qne := qnormalized (qmul (n_Qne nav) (rv_to_quaternion (vneg d))) in
    bind (lla_opt Qne) (fun ll =>
    let pos := V (fst ll) (snd ll) (vz (n_pos nav) + vz (x_pos x)) in
    let vn := mvec (madd eye (skew d)) (vsub (n_vn nav) (x_vel x)) in
    let Qbn := qnormalized (qmul (rv_to_quaternion (vadd (x_att x) d)) (n_Qbn nav)) in
    let Cbn := quaternion_to_dcm Qbn in
    let nav1 := nav_place nav pos Qne (n_Cne nav) in
    let nav2 := nav_vel nav1 vn (n_dvn nav) (n_vf nav) in
    let nav3 := nav_turn nav2 Qbn Cbn (dcm_to_euler Cbn) in
    let nav4 := nav_bias nav3 (vadd (n_gb nav) (x_gb x)) (vadd (n_ab nav) (x_ab x)) in
    Some (Ins nav4 (s_dt s) (s_acce_pre s) (s_gyro_pre s) (s_wen s) (s_wie s) (s_vn_mid s) (s_pos_mid s) (s_g s)))
  else None.

(** any interleaving of IMU samples and fed back corrections *)
Inductive ins_op := OpSample (x : imu) | OpCorrect (x : err).
(** Src/InsCore.cpp ForwardMechanization or Src/DataFusion.cpp _feedBack *)
Definition ins_do (s : ins) (o : ins_op) : option ins :=
  match o with OpSample x => forward s x | OpCorrect x => feedback s x end.
(** the calls in sequence; [None] as soon as one of them is undefined *)
Fixpoint ins_run (s : ins) (ops : list ins_op) : option ins :=
  match ops with [] => Some s | o :: r => bind (ins_do s o) (fun t => ins_run t r) end.
