(** Src/DataFusion.{h,cpp}: the loosely coupled filter with fifteen states (Src/RgioeDefine.h:18-22, as shipped).
    Over the reals.  [None]: a value is an infinity or a NaN (division by zero, inverse of a singular matrix), or a
    signed counter overflows. *)
From Coq Require Import Reals ZArith List.
From mathcomp Require Import all_ssreflect ssralg matrix.
From Verif Require Import RealMath EarthModel ConvertModel SmoothModel InsModel FusionBase Rfield KalmanModel.
Import GRing.Theory.
Local Open Scope ring_scope.

(** matrices put together from 3x3 blocks, block (r, c) at rows 3r.. and columns 3c.. *)
Definition blocks {a b} (f : nat -> nat -> mat) : 'M[R]_(a, b) := \matrix_(i, j) entry (f (i %/ 3)%N (j %/ 3)%N) (i %% 3)%N (j %% 3)%N.
(** a column put together from three-vectors *)
Definition column {a} (f : nat -> vec) : 'cV[R]_a := \matrix_(i, j) coord (f (i %/ 3)%N) (i %% 3)%N.
(** a diagonal matrix put together from three-vectors *)
Definition diagonal {a} (f : nat -> vec) : 'M[R]_a := \matrix_(i, j) if i == j then coord (f (i %/ 3)%N) (i %% 3)%N else 0.
(** entries 3b, 3b+1, 3b+2 of a state *)
Definition part (x : 'cV[R]_15) (b : nat) : vec :=
  V (x (inord (3 * b)) ord0) (x (inord (3 * b).+1) ord0) (x (inord (3 * b).+2) ord0).
(** the components that Src/DataFusion.cpp:347-384 reads from the vector it is given *)
Definition err_of (x : 'cV[R]_15) : err := Err (part x 0) (part x 1) (part x 2) (part x 3) (part x 4).

(** Src/DataFusion.h:166-203 members; lb_gnss, lb_wheel and Cbv are functions of opt (Src/DataFusion.cpp:106-110) and
    never change without RGIOE_ESTIMATE_GNSS_LEVEL_ARM. The remaining counters of the monitor are never read. *)
Record fusion := Fu {
  f_ins : ins; f_kf : kf 15; f_Q0 : 'M[R]_15; f_opt : option_t;
  f_flag : Z; f_Xd : 'cV[R]_15; f_iter : Z; f_idx : Z; f_smooth : smooth;
  f_cnt : Z; f_min : Z; f_pheight : R; f_gheight : R; f_base : Z }.

(** setters *)
Definition set_ins (s : fusion) (i : ins) : fusion :=
  Fu i (f_kf s) (f_Q0 s) (f_opt s) (f_flag s) (f_Xd s) (f_iter s) (f_idx s) (f_smooth s) (f_cnt s) (f_min s) (f_pheight s) (f_gheight s) (f_base s).
(** assignment to kf, Src/DataFusion.h *)
Definition set_kf (s : fusion) (k : kf 15) : fusion :=
  Fu (f_ins s) k (f_Q0 s) (f_opt s) (f_flag s) (f_Xd s) (f_iter s) (f_idx s) (f_smooth s) (f_cnt s) (f_min s) (f_pheight s) (f_gheight s) (f_base s).
(** assignment to update_flag, Src/DataFusion.h *)
Definition set_flag (s : fusion) (b : Z) : fusion :=
  Fu (f_ins s) (f_kf s) (f_Q0 s) (f_opt s) b (f_Xd s) (f_iter s) (f_idx s) (f_smooth s) (f_cnt s) (f_min s) (f_pheight s) (f_gheight s) (f_base s).
(** assignment to kfXd and update_iter, Src/DataFusion.cpp:137-146 *)
Definition set_pending (s : fusion) (x : 'cV[R]_15) (n : Z) : fusion :=
  Fu (f_ins s) (f_kf s) (f_Q0 s) (f_opt s) (f_flag s) x n (f_idx s) (f_smooth s) (f_cnt s) (f_min s) (f_pheight s) (f_gheight s) (f_base s).
(** assignments of Src/DataFusion.cpp:147-175: smooth, the mechanisation, kf, _timeUpdateIdx *)
Definition set_epoch (s : fusion) (sm : smooth) (i : ins) (k : kf 15) (idx : Z) : fusion :=
  Fu i k (f_Q0 s) (f_opt s) (f_flag s) (f_Xd s) (f_iter s) idx sm (f_cnt s) (f_min s) (f_pheight s) (f_gheight s) (f_base s).
(** assignment to the counters of monitor, Src/DataFusion.h:53-59 *)
Definition set_monitor (s : fusion) (c m : Z) : fusion :=
  Fu (f_ins s) (f_kf s) (f_Q0 s) (f_opt s) (f_flag s) (f_Xd s) (f_iter s) (f_idx s) (f_smooth s) c m (f_pheight s) (f_gheight s) (f_base s).
(** assignment to p_height, gnss_height, base_height_is_set, Src/DataFusion.h:190-195 *)
Definition set_height (s : fusion) (p g : R) (b : Z) : fusion :=
  Fu (f_ins s) (f_kf s) (f_Q0 s) (f_opt s) (f_flag s) (f_Xd s) (f_iter s) (f_idx s) (f_smooth s) (f_cnt s) (f_min s) p g b.

(** a decimal exponent *)
Definition five_nano : R := Rdiv 5 1000000000.
(** Src/DataFusion.h:192-193 INT32_MIN as a double *)
Definition int32_min : R := IZR (-2147483648).
(** Src/DataFusion.h:58 UINT32_MAX *)
Definition uint32_max : Z := 4294967295.

(** Src/DataFusion.cpp:15-22 constructor, DataFusion.h:193-199 initialisers, InsCore.cpp:150-157; [i] stands for the
    members of Ins, of which omega_en_n, omega_ie_n, vn_mid and pos_mid are uninitialised; [o] for opt{}: zeros. *)
Definition fusion_new (i : ins) (o : option_t) : fusion :=
  Fu i (Kf 0 0) 0 o 0 0 0 0 (smooth_new five_nano 2 10) 0 uint32_max int32_min int32_min 0.

(** Src/DataFusion.cpp:29-111 Initialize. [None]: one of the divisors d_rate, gt_corr, at_corr is zero *)
Definition initialize (s : fusion) (nav : navepoch) (o : option_t) : option fusion :=
  if is_zero (o_rate o) || is_zero (o_gt_corr o) || is_zero (o_at_corr o) then None else
  let i := init_pva (f_ins s) nav (o_rate o) in
  let i := ins_nav i (nav_kd (s_nav i) (o_odo_scale o)) in
  let d : 'M[R]_15 := diagonal (std_diag nav o) in
  Some (Fu i (Kf 0 (d *m d)) (diagonal (Q0_diag o)) o (f_flag s) (f_Xd s) (f_iter s) 0 (f_smooth s)
           (f_cnt s) (f_min s) (f_pheight s) (f_gheight s) (f_base s)).

(** Src/DataFusion.cpp:302-341 TransferMatrix *)
Definition transfer (i : ins) (o : option_t) : option 'M[R]_15 :=
  if transfer_defined i (o_gt_corr o) (o_at_corr o) then Some (blocks (phi_block i (o_gt_corr o) (o_at_corr o))) else None.

(** Src/DataFusion.cpp:137-146: hand over a new estimate, then feed one part back *)
Definition take_estimate (s : fusion) : fusion :=
  if Z.ltb 0 (f_flag s) then
    set_flag (set_kf (set_pending s (kX (f_kf s)) (max_iter (f_min s))) (kf_reset (f_kf s))) 0
  else s.
(** Src/DataFusion.cpp:144 kfXd / monitor.GetMaxIntegrateIter() *)
Definition share (s : fusion) : 'cV[R]_15 := Rinv (IZR (max_iter (f_min s))) *: f_Xd s.
(** Src/DataFusion.cpp:143-146 *)
Definition feed (s : fusion) : option fusion :=
  if Z.ltb 0 (f_iter s) then
    bind (feedback (f_ins s) (err_of (share s))) (fun i =>
    Some (set_pending (set_ins s i) (f_Xd s) (Z.sub (f_iter s) 1)))
  else Some s.

(** Src/DataFusion.cpp:149-152: process noise *)
Definition process_noise (phi q0 : 'M[R]_15) (dt : R) : 'M[R]_15 := dt *: (Rdiv 1 2 *: (phi *m q0 + q0 *m phi^T)).

(** Src/DataFusion.cpp:9-11 *)
Definition FLAG_POSITION : Z := 7.
(** Src/DataFusion.cpp:9-11 FLAG_VELOCITY *)
Definition FLAG_VELOCITY : Z := 56.
(** Src/DataFusion.cpp:9-11 FLAG_HEIGHT *)
Definition FLAG_HEIGHT : Z := 64.

(** a 1x1 matrix *)
Definition one_by_one (x : R) : 'M[R]_1 := x%:M.
(** Src/DataFusion.cpp:450-467 MeasureZeroVelocity; zupta divides by dt *)
Definition zupta_row : 'M[R]_(1, 15) := \matrix_(i, j) if j == inord 11 then 1 else 0.
(** Src/DataFusion.cpp:450-467 MeasureZeroVelocity *)
Definition zero_velocity (s : fusion) : option fusion :=
  let o := f_opt s in let i := f_ins s in
  let std := Rmult (o_zupt_std o) (o_zupt_std o) in
  bind (kf_update (m := 3) (f_kf s) (blocks (fun _ c => zupt_h c)) (column (fun _ => n_vn (s_nav i))) (diagonal (fun _ => V std std std))) (fun k =>
  let s1 := set_flag (set_kf s k) (Z.lor (f_flag s) FLAG_VELOCITY) in
  if o_zupta o then
    if is_zero (s_dt i) then None else
    bind (kf_update k zupta_row (one_by_one (Rdiv (vz (s_gyro_pre i)) (s_dt i))) (one_by_one (Rmult (o_zupta_std o) (o_zupta_std o)))) (fun k2 =>
    Some (set_kf s1 k2))
  else Some s1).

(** rows 1 and 2 of three *)
Definition lower2 {n} (m : 'M[R]_(3, n)) : 'M[R]_(2, n) := \matrix_(i, j) m (inord i.+1) j.
(** Src/DataFusion.cpp:431-448 MeasureNHC *)
Definition measure_nhc (s : fusion) : option fusion :=
  let o := f_opt s in let i := f_ins s in
  let z : 'cV[R]_3 := column (fun _ => wheel_velocity i o) in
  let h : 'M[R]_(3, 15) := blocks (fun _ c => vel_h i o c) in
  let d : 'M[R]_2 := diagonal (fun _ => V (o_nhc_std0 o) (o_nhc_std1 o) 0) in
  bind (kf_update (f_kf s) (lower2 h) (lower2 z) (d *m d)) (fun k =>
  Some (set_flag (set_kf s k) (Z.lor (f_flag s) FLAG_VELOCITY))).

(** Src/DataFusion.cpp:160-167 *)
Definition zupt_step (s : fusion) : option fusion :=
  if (~~ Z.eqb (Z.modulo (f_idx s) 8) 0) && o_zupt (f_opt s) then
    if is_static (f_smooth s) then
      bind (zero_velocity s) (fun s1 => Some (set_ins s1 (sensors_set (f_ins s1) SENSOR_ZUPT)))
    else Some (set_ins s (sensors_clear (f_ins s) SENSOR_ZUPT))
  else Some s.
(** Src/DataFusion.cpp:169-174 *)
Definition nhc_step (s : fusion) : option fusion :=
  if [&& Z.eqb (Z.modulo (f_idx s) 32) 1, o_nhc (f_opt s) & ~~ o_odo (f_opt s)] then
    bind (measure_nhc s) (fun s1 => Some (set_ins s1 (sensors_set (f_ins s1) SENSOR_NHC)))
  else Some (set_ins s (sensors_clear (f_ins s) SENSOR_NHC)).

(** Src/DataFusion.cpp:147-159: detector, mechanisation and prediction *)
Definition propagate (s : fusion) (x : imu) : option fusion :=
  bind (smooth_update (f_smooth s) x) (fun sm =>
  bind (forward (f_ins s) x) (fun i =>
  bind (transfer i (f_opt s)) (fun phi =>
  let k := kf_predict (f_kf s) phi (process_noise phi (f_Q0 s) (s_dt i)) in
  Some (set_epoch s sm i k (u32 (Z.add (f_idx s) 1)))))).

(** Src/DataFusion.cpp:119-196 TimeUpdate; the last line is Monitor::OnTimeUpdate (576-579) *)
Definition time_update (s : fusion) (x : imu) : option fusion :=
  bind (feed (take_estimate s)) (fun s1 =>
  bind (propagate s1 x) (fun s2 =>
  bind (zupt_step s2) (fun s3 =>
  bind (nhc_step s3) (fun s4 =>
  Some (set_monitor s4 (u32 (Z.add (f_cnt s4) 1)) (f_min s4)))))).

(** Src/DataFusion.cpp:581-592 Monitor::OnMeasUpdate *)
Definition on_meas_update (s : fusion) : fusion :=
  set_monitor s 0 (if Z.ltb (f_cnt s) (f_min s) then f_cnt s else f_min s).

(** Src/DataFusion.cpp:205-226 MeasureUpdatePos(pos, Rk) *)
Definition measure_pos (s : fusion) (pos : vec) (r : 'M[R]_3) : option fusion :=
  let i := f_ins s in let lb := o_lb_gnss (f_opt s) in
  bind (kf_update (f_kf s) (blocks (fun _ c => pos_h i lb c)) (column (fun _ => pos_z i lb pos)) r) (fun k =>
  Some (on_meas_update (set_flag (set_kf s k) (Z.lor (f_flag s) FLAG_POSITION)))).

(** Src/DataFusion.cpp:238-265 MeasureUpdatePos(gnss); nav.info.gnss_mode is an unsigned short *)
Definition fix_noise (o : option_t) (g : gnss) : 'M[R]_3 :=
  let v x := Rmult (Rmult x x) (o_gnss_scale o) in
  diagonal (fun _ => V (v (vx (g_std g))) (v (vy (g_std g))) (v (vz (g_std g)))).
(** Src/DataFusion.cpp:242 pos *)
Definition fix_place (g : gnss) : vec := V (Rmult (g_lat g) deg) (Rmult (g_lon g) deg) (g_height g).
(** Src/DataFusion.cpp:238-265 MeasureUpdatePos(gnss) *)
Definition gnss_update (s : fusion) (g : gnss) : option fusion :=
  if gnss_check g then
    let s1 := set_ins s (mode_set (sensors_set (f_ins s) SENSOR_GNSS) (Z.to_nat (Z.modulo (g_mode g) 65536))) in
    bind (measure_pos s1 (fix_place g) (fix_noise (f_opt s) g)) (fun s2 =>
    Some (set_height s2 (f_pheight s2) (g_height g) 1))
  else Some (set_ins s (mode_set (sensors_clear (f_ins s) SENSOR_GNSS) MODE_INVALID)).

(** row i of three *)
Definition row_of {n} (m : 'M[R]_(3, n)) (i : nat) : 'M[R]_(1, n) := \matrix_(_, j) m (inord i) j.
(** Src/DataFusion.cpp:267-292 MeasureUpdateVel *)
Definition velocity_update_f (s : fusion) (vel : vec) : option fusion :=
  let o := f_opt s in
  let i := sensors_set (f_ins s) SENSOR_ODO in
  let h : 'M[R]_(3, 15) := blocks (fun _ c => vel_h i o c) in
  let z : 'cV[R]_3 := column (fun _ => vsub (wheel_velocity i o) (vscale (n_kd (s_nav i)) vel)) in
  let finish k i := on_meas_update (set_flag (set_ins (set_kf s k) i) (Z.lor (f_flag s) FLAG_VELOCITY)) in
  if o_nhc o then
    let d : 'M[R]_3 := diagonal (fun _ => V (o_odo_std o) (o_nhc_std0 o) (o_nhc_std1 o)) in
    bind (kf_update (f_kf s) h z (d *m d)) (fun k => Some (finish k (sensors_set i SENSOR_NHC)))
  else
    bind (kf_update (f_kf s) (row_of h 0) (row_of z 0) (one_by_one (Rmult (o_odo_std o) (o_odo_std o)))) (fun k =>
    Some (finish k (sensors_clear i SENSOR_NHC))).

(** Src/DataFusion.cpp:480-501 MeasureUpdateRelativeHeight; base_height_is_set is an int *)
Definition height_update (s : fusion) (height : R) : option fusion :=
  let o := f_opt s in
  let p := if Z.eqb (f_base s) 1 then height else f_pheight s in
  bind (if Z.ltb 4 (f_base s) then
          let i := f_ins s in let lb := o_lb_gnss o in let pos := n_pos (s_nav i) in
          let z := pos_z i lb (V (vx pos) (vy pos) (Rminus (Rplus (f_gheight s) height) p)) in
          let h : 'M[R]_(3, 15) := blocks (fun _ c => pos_h i lb c) in
          bind (kf_update (f_kf s) (row_of h 2) (one_by_one (vz z)) (one_by_one (Rmult (o_zupta_std o) (o_zupta_std o)))) (fun k =>
          Some (set_ins (set_flag (set_kf s k) (Z.lor (f_flag s) FLAG_HEIGHT)) (sensors_set i SENSOR_HEIGHT)))
        else Some (set_ins s (sensors_clear (f_ins s) SENSOR_HEIGHT)))
    (fun s1 =>
  if Z.ltb int_max (Z.add (f_base s) 1) then None else
  Some (set_height s1 p (f_gheight s1) (Z.add (f_base s) 1))).

(** a history of calls *)
Inductive call := CallImu (x : imu) | CallGnss (g : gnss) | CallVel (v : vec) | CallHeight (h : R).
(** one call of Src/DataFusion.cpp, as named in [call] *)
Definition do_call (s : fusion) (c : call) : option fusion :=
  match c with
  | CallImu x => time_update s x | CallGnss g => gnss_update s g
  | CallVel v => velocity_update_f s v | CallHeight h => height_update s h
  end.
(** the calls in sequence; [None] as soon as one of them is undefined *)
Fixpoint run_calls (s : fusion) (cs : list call) : option fusion :=
  match cs with nil => Some s | cons c r => bind (do_call s c) (fun t => run_calls t r) end.
