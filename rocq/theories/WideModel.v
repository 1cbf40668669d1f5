(** Src/DataFusion.{h,cpp} with the optional states of Src/RgioeDefine.h, the whole class. Over the reals.  [None]: a value is an
    infinity or a NaN (division by zero, inverse of a singular matrix), a signed counter overflows, or the feedback reads outside the
    estimate (SelectModel.feedback_defined). *)
From Coq Require Import Reals ZArith List.
From mathcomp Require Import all_ssreflect ssralg matrix.
From Verif Require Import RealMath EarthModel ConvertModel SmoothModel InsModel FusionBase Rfield KalmanModel FusionModel LayoutModel SelectModel.
Import GRing.Theory.
Local Open Scope ring_scope.

(** a table as a matrix *)
Definition of_table {a b} (t : table) : 'M[R]_(a, b) := \matrix_(i, j) t i j.
(** rows of 3x3 blocks for the fifteen states, zeros for the others: Mat3X::Zero() and the assignments to its blocks *)
Definition base_rows (f : nat -> mat) : table := fun r k => if (k < 15)%N then entry (f (k %/ 3)%N) r (k %% 3)%N else 0.
(** Src/DataFusion.cpp:67-103: the diagonal of Q0, in the order of the assignments *)
Definition init_Q0 (sel : selection) (o : option_t) (x : extra) : table :=
  let q := diagonal_loop zero_table 0 15 (fun k => coord (Q0_diag o (k %/ 3)%N) (k %% 3)%N) in
  let q := if gyro_sf sel then diagonal_loop q (gyro_start sel) (gyro_size sel) (fun i => Rdiv (Rmult (Rmult 2 (coord (x_gs_std x) i)) (coord (x_gs_std x) i)) (o_gt_corr o)) else q in
  let q := if acce_sf sel then diagonal_loop q (acce_start sel) (acce_size sel) (fun i => Rdiv (Rmult (Rmult 2 (coord (x_as_std x) i)) (coord (x_as_std x) i)) (o_at_corr o)) else q in
  let q := if level_arm sel then diagonal_loop q (arm_start sel) (arm_size sel) (fun _ => 0) else q in
  if odo_sf sel then diagonal_loop q (odo_start sel) (odo_size sel) (fun _ => Rdiv (Rmult (Rmult 2 (x_odo_scale_std x)) (x_odo_scale_std x)) 3600) else q.

(** Src/DataFusion.h:166-203 members, as in FusionModel; lb_gnss changes only in a feedback that reads outside the estimate *)
Record wide (c : selection) := Wd {
  w_ins : ins; w_kf : kf (STATE_CNT c); w_Q0 : 'M[R]_(STATE_CNT c); w_opt : option_t;
  w_flag : Z; w_Xd : 'cV[R]_(STATE_CNT c); w_iter : Z; w_idx : Z; w_smooth : smooth;
  w_cnt : Z; w_min : Z; w_pheight : R; w_gheight : R; w_base : Z }.
Arguments Wd {c} _ _ _ _ _ _ _ _ _ _ _ _ _ _.
Arguments w_ins {c} _. Arguments w_kf {c} _. Arguments w_Q0 {c} _. Arguments w_opt {c} _.
Arguments w_flag {c} _. Arguments w_Xd {c} _. Arguments w_iter {c} _. Arguments w_idx {c} _. Arguments w_smooth {c} _. Arguments w_cnt {c} _.
Arguments w_min {c} _. Arguments w_pheight {c} _. Arguments w_gheight {c} _. Arguments w_base {c} _.

Section Build.
Variable c : selection.
Notation n := (STATE_CNT c).
Notation state := (wide c).
Implicit Types s : state.

(** assignment to the members of Ins *)
Definition wset_ins s (i : ins) : state :=
  Wd i (w_kf s) (w_Q0 s) (w_opt s) (w_flag s) (w_Xd s) (w_iter s) (w_idx s) (w_smooth s) (w_cnt s) (w_min s) (w_pheight s) (w_gheight s) (w_base s).
(** assignment to kf *)
Definition wset_kf s (k : kf n) : state :=
  Wd (w_ins s) k (w_Q0 s) (w_opt s) (w_flag s) (w_Xd s) (w_iter s) (w_idx s) (w_smooth s) (w_cnt s) (w_min s) (w_pheight s) (w_gheight s) (w_base s).
(** assignment to update_flag *)
Definition wset_flag s (b : Z) : state :=
  Wd (w_ins s) (w_kf s) (w_Q0 s) (w_opt s) b (w_Xd s) (w_iter s) (w_idx s) (w_smooth s) (w_cnt s) (w_min s) (w_pheight s) (w_gheight s) (w_base s).
(** assignment to kfXd and update_iter *)
Definition wset_pending s (x : 'cV[R]_n) (k : Z) : state :=
  Wd (w_ins s) (w_kf s) (w_Q0 s) (w_opt s) (w_flag s) x k (w_idx s) (w_smooth s) (w_cnt s) (w_min s) (w_pheight s) (w_gheight s) (w_base s).
(** assignments of Src/DataFusion.cpp:147-175 *)
Definition wset_epoch s (sm : smooth) (i : ins) (k : kf n) (idx : Z) : state :=
  Wd i k (w_Q0 s) (w_opt s) (w_flag s) (w_Xd s) (w_iter s) idx sm (w_cnt s) (w_min s) (w_pheight s) (w_gheight s) (w_base s).
(** assignment to the counters of monitor *)
Definition wset_monitor s (k m : Z) : state :=
  Wd (w_ins s) (w_kf s) (w_Q0 s) (w_opt s) (w_flag s) (w_Xd s) (w_iter s) (w_idx s) (w_smooth s) k m (w_pheight s) (w_gheight s) (w_base s).
(** assignment to p_height, gnss_height, base_height_is_set *)
Definition wset_height s (p g : R) (b : Z) : state :=
  Wd (w_ins s) (w_kf s) (w_Q0 s) (w_opt s) (w_flag s) (w_Xd s) (w_iter s) (w_idx s) (w_smooth s) (w_cnt s) (w_min s) p g b.

(** xd[k]: along the row *)
Definition comp (x : 'cV[R]_n) (k : nat) : R := if insub k is Some i then x i ord0 else 0.
(** three of them *)
Definition comp3 (x : 'cV[R]_n) (b : nat) : vec := V (comp x (3 * b)) (comp x (3 * b).+1) (comp x (3 * b).+2).
(** the components that Src/DataFusion.cpp:347-384 reads in every build *)
Definition wide_err_of (x : 'cV[R]_n) : err := Err (comp3 x 0) (comp3 x 1) (comp3 x 2) (comp3 x 3) (comp3 x 4).
(** Src/DataFusion.cpp:347-384 _feedBack *)
Definition wide_feedback (i : ins) (x : 'cV[R]_n) : option ins := if feedback_defined c then feedback i (wide_err_of x) else None.
(** Src/DataFusion.cpp:386-399 _posH: no divisor is zero *)
Definition vdr_defined (i : ins) : bool :=
  let p := n_pos (s_nav i) in
  ~~ level_arm c || ~~ (is_zero (Rplus (RM (vx p)) (vz p)) || is_zero (Rmult (Rplus (RN (vx p)) (vz p)) (cos (vx p)))).

(** Src/DataFusion.cpp:15-22 constructor, as in FusionModel *)
Definition wide_new (i : ins) (o : option_t) : state :=
  Wd i (Kf 0 0) 0 o 0 0 0 0 (smooth_new five_nano 2 10) 0 uint32_max int32_min int32_min 0.
(** Src/DataFusion.cpp:29-111 Initialize *)
Definition wide_initialize s (nav : navepoch) (o : option_t) (x : extra) : option state :=
  if is_zero (o_rate o) || is_zero (o_gt_corr o) || is_zero (o_at_corr o) then None else
  let i := init_pva (w_ins s) nav (o_rate o) in
  let i := ins_nav i (nav_kd (s_nav i) (o_odo_scale o)) in
  Some (Wd i (Kf 0 (of_table (init_cov c nav o x))) (of_table (init_Q0 c o x)) o (w_flag s) (w_Xd s) (w_iter s) 0 (w_smooth s)
           (w_cnt s) (w_min s) (w_pheight s) (w_gheight s) (w_base s)).

(** Src/DataFusion.cpp:302-341 TransferMatrix *)
Definition wide_transfer (i : ins) (o : option_t) : option 'M[R]_n :=
  if transfer_defined i (o_gt_corr o) (o_at_corr o) then Some (of_table (transition c i o)) else None.
(** Src/DataFusion.cpp:137-142 *)
Definition wide_take s : state :=
  if Z.ltb 0 (w_flag s) then
    wset_flag (wset_kf (wset_pending s (kX (w_kf s)) (max_iter (w_min s))) (kf_reset (w_kf s))) 0
  else s.
(** Src/DataFusion.cpp:144 *)
Definition wide_share s : 'cV[R]_n := Rinv (IZR (max_iter (w_min s))) *: w_Xd s.
(** Src/DataFusion.cpp:143-146 *)
Definition wide_feed s : option state :=
  if Z.ltb 0 (w_iter s) then
    bind (wide_feedback (w_ins s) (wide_share s)) (fun i =>
    Some (wset_pending (wset_ins s i) (w_Xd s) (Z.sub (w_iter s) 1)))
  else Some s.
(** Src/DataFusion.cpp:149-152 *)
Definition wide_noise (phi q0 : 'M[R]_n) (dt : R) : 'M[R]_n := dt *: (Rdiv 1 2 *: (phi *m q0 + q0 *m phi^T)).
(** Src/DataFusion.cpp:450-467 MeasureZeroVelocity: state 11 *)
Definition wide_zupta_row : 'M[R]_(1, n) := \matrix_(i, j) if (j : nat) == 11%N then 1 else 0.
(** Src/DataFusion.cpp:450-467 MeasureZeroVelocity *)
Definition wide_zero_velocity s : option state :=
  let o := w_opt s in let i := w_ins s in
  let std := Rmult (o_zupt_std o) (o_zupt_std o) in
  bind (kf_update (m := 3) (w_kf s) (of_table (base_rows zupt_h)) (column (fun _ => n_vn (s_nav i))) (diagonal (fun _ => V std std std))) (fun k =>
  let s1 := wset_flag (wset_kf s k) (Z.lor (w_flag s) FLAG_VELOCITY) in
  if o_zupta o then
    if is_zero (s_dt i) then None else
    bind (kf_update k wide_zupta_row (one_by_one (Rdiv (vz (s_gyro_pre i)) (s_dt i))) (one_by_one (Rmult (o_zupta_std o) (o_zupta_std o)))) (fun k2 =>
    Some (wset_kf s1 k2))
  else Some s1).
(** Src/DataFusion.cpp:431-448 MeasureNHC *)
Definition wide_nhc s : option state :=
  let o := w_opt s in let i := w_ins s in
  let z : 'cV[R]_3 := column (fun _ => wheel_velocity i o) in
  let h : 'M[R]_(3, n) := of_table (base_rows (vel_h i o)) in
  let d : 'M[R]_2 := diagonal (fun _ => V (o_nhc_std0 o) (o_nhc_std1 o) 0) in
  bind (kf_update (w_kf s) (lower2 h) (lower2 z) (d *m d)) (fun k =>
  Some (wset_flag (wset_kf s k) (Z.lor (w_flag s) FLAG_VELOCITY))).
(** Src/DataFusion.cpp:160-167 *)
Definition wide_zupt_step s : option state :=
  if (~~ Z.eqb (Z.modulo (w_idx s) 8) 0) && o_zupt (w_opt s) then
    if is_static (w_smooth s) then
      bind (wide_zero_velocity s) (fun s1 => Some (wset_ins s1 (sensors_set (w_ins s1) SENSOR_ZUPT)))
    else Some (wset_ins s (sensors_clear (w_ins s) SENSOR_ZUPT))
  else Some s.
(** Src/DataFusion.cpp:169-174 *)
Definition wide_nhc_step s : option state :=
  if [&& Z.eqb (Z.modulo (w_idx s) 32) 1, o_nhc (w_opt s) & ~~ o_odo (w_opt s)] then
    bind (wide_nhc s) (fun s1 => Some (wset_ins s1 (sensors_set (w_ins s1) SENSOR_NHC)))
  else Some (wset_ins s (sensors_clear (w_ins s) SENSOR_NHC)).
(** Src/DataFusion.cpp:147-159 *)
Definition wide_propagate s (x : imu) : option state :=
  bind (smooth_update (w_smooth s) x) (fun sm =>
  bind (forward (w_ins s) x) (fun i =>
  bind (wide_transfer i (w_opt s)) (fun phi =>
  let k := kf_predict (w_kf s) phi (wide_noise phi (w_Q0 s) (s_dt i)) in
  Some (wset_epoch s sm i k (u32 (Z.add (w_idx s) 1)))))).
(** Src/DataFusion.cpp:119-196 TimeUpdate *)
Definition wide_time s (x : imu) : option state :=
  bind (wide_feed (wide_take s)) (fun s1 =>
  bind (wide_propagate s1 x) (fun s2 =>
  bind (wide_zupt_step s2) (fun s3 =>
  bind (wide_nhc_step s3) (fun s4 =>
  Some (wset_monitor s4 (u32 (Z.add (w_cnt s4) 1)) (w_min s4)))))).
(** Src/DataFusion.cpp:581-592 *)
Definition wide_measured s : state :=
  wset_monitor s 0 (if Z.ltb (w_cnt s) (w_min s) then w_cnt s else w_min s).
(** Src/DataFusion.cpp:386-399 _posH *)
Definition wide_design (i : ins) (lb : vec) : 'M[R]_(3, n) := of_table (position_design c i lb).
(** Src/DataFusion.cpp:205-226 MeasureUpdatePos(pos, Rk) *)
Definition wide_measure_pos s (pos : vec) (r : 'M[R]_3) : option state :=
  let i := w_ins s in let lb := o_lb_gnss (w_opt s) in
  if vdr_defined i then
    bind (kf_update (w_kf s) (wide_design i lb) (column (fun _ => pos_z i lb pos)) r) (fun k =>
    Some (wide_measured (wset_flag (wset_kf s k) (Z.lor (w_flag s) FLAG_POSITION))))
  else None.
(** Src/DataFusion.cpp:238-265 MeasureUpdatePos(gnss) *)
Definition wide_gnss s (g : gnss) : option state :=
  if gnss_check g then
    let s1 := wset_ins s (mode_set (sensors_set (w_ins s) SENSOR_GNSS) (Z.to_nat (Z.modulo (g_mode g) 65536))) in
    bind (wide_measure_pos s1 (fix_place g) (fix_noise (w_opt s) g)) (fun s2 =>
    Some (wset_height s2 (w_pheight s2) (g_height g) 1))
  else Some (wset_ins s (mode_set (sensors_clear (w_ins s) SENSOR_GNSS) MODE_INVALID)).
(** Src/DataFusion.cpp:267-292 MeasureUpdateVel *)
Definition wide_velocity s (vel : vec) : option state :=
  let o := w_opt s in
  let i := sensors_set (w_ins s) SENSOR_ODO in
  let h : 'M[R]_(3, n) := of_table (base_rows (vel_h i o)) in
  let z : 'cV[R]_3 := column (fun _ => vsub (wheel_velocity i o) (vscale (n_kd (s_nav i)) vel)) in
  let finish k i := wide_measured (wset_flag (wset_ins (wset_kf s k) i) (Z.lor (w_flag s) FLAG_VELOCITY)) in
  if o_nhc o then
    let d : 'M[R]_3 := diagonal (fun _ => V (o_odo_std o) (o_nhc_std0 o) (o_nhc_std1 o)) in
    bind (kf_update (w_kf s) h z (d *m d)) (fun k => Some (finish k (sensors_set i SENSOR_NHC)))
  else
    bind (kf_update (w_kf s) (row_of h 0) (row_of z 0) (one_by_one (Rmult (o_odo_std o) (o_odo_std o)))) (fun k =>
    Some (finish k (sensors_clear i SENSOR_NHC))).
(** Src/DataFusion.cpp:480-501 MeasureUpdateRelativeHeight *)
Definition wide_height s (height : R) : option state :=
  let o := w_opt s in
  let p := if Z.eqb (w_base s) 1 then height else w_pheight s in
  bind (if Z.ltb 4 (w_base s) then
          let i := w_ins s in let lb := o_lb_gnss (w_opt s) in let pos := n_pos (s_nav i) in
          let z := pos_z i lb (V (vx pos) (vy pos) (Rminus (Rplus (w_gheight s) height) p)) in
          if vdr_defined i then
          bind (kf_update (w_kf s) (row_of (wide_design i lb) 2) (one_by_one (vz z)) (one_by_one (Rmult (o_zupta_std o) (o_zupta_std o)))) (fun k =>
          Some (wset_ins (wset_flag (wset_kf s k) (Z.lor (w_flag s) FLAG_HEIGHT)) (sensors_set i SENSOR_HEIGHT)))
          else None
        else Some (wset_ins s (sensors_clear (w_ins s) SENSOR_HEIGHT)))
    (fun s1 =>
  if Z.ltb int_max (Z.add (w_base s) 1) then None else
  Some (wset_height s1 p (w_gheight s1) (Z.add (w_base s) 1))).

(** one call of Src/DataFusion.cpp, as named in [call] *)
Definition wide_do s (k : call) : option state :=
  match k with
  | CallImu x => wide_time s x | CallGnss g => wide_gnss s g
  | CallVel v => wide_velocity s v | CallHeight h => wide_height s h
  end.
(** the calls in sequence; [None] as soon as one of them is undefined *)
Fixpoint wide_run s (cs : list call) : option state :=
  match cs with nil => Some s | cons k r => bind (wide_do s k) (fun t => wide_run t r) end.
End Build.
