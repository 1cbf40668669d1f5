(** What corrections do to the solution, and the linear models of the filter: C75-C78, C145. *)
From Coq Require Import Reals List.
From mathcomp Require Import ssreflect ssralg matrix.
From Verif Require Import RealMath EarthModel ConvertModel ConvertSpec SmoothModel InsModel InsProofs InsRest FusionBase Rfield KalmanModel FusionModel FusionSpec
  JacobianSpec JacobianBase JacobianProofs JacobianMain JacobianMatrix WanderSpec WanderProofs WanderMain WanderCase.
Import ListNotations.
Local Open Scope R_scope.

(** [located s lat lon h]: the place (lat, lon, h) of the state is the one read from its position quaternion, and no rate is divided by
    zero there; this is every state the library reaches (C75_every_state). [agrees s lat lon h]: moreover the quaternion is the one made
    from latitude and longitude. [slip] measures the difference. [moves (after s x f) v0 dv]: when the e-th part of the estimate x is
    fed back, f of the state goes from v0 by e dv, to first order in e. *)

(** ** C75: in earth-fixed axes, the place and the velocity are moved back by the estimated errors, and every direction
    fixed to the unit is turned by the estimated attitude error; the rest is proportional to the slip *)
Theorem C75_place : forall s x lat lon h, located s lat lon h ->
  moves (after s x earth_place) (earth_place s)
    (vneg (local_vector lat lon (vadd (x_pos x) (vscale (slip (n_Qne (s_nav s))) (slip_shift lat lon h (x_pos x)))))).
Proof. exact place_moves_any. Qed.
Theorem C75_velocity : forall s x lat lon h, located s lat lon h ->
  moves (after s x earth_velocity) (earth_velocity s)
    (vneg (local_vector lat lon (vadd (x_vel x)
      (vscale (slip (n_Qne (s_nav s))) (cross (frame_turn lat h (slip_shift lat lon h (x_pos x))) (n_vn (s_nav s))))))).
Proof. exact velocity_moves_any. Qed.
Theorem C75_attitude : forall s x lat lon h v, located s lat lon h ->
  moves (after s x (earth_direction v)) (earth_direction v s)
    (local_vector lat lon (cross (vsub (x_att x) (vscale (slip (n_Qne (s_nav s))) (frame_turn lat h (slip_shift lat lon h (x_pos x)))))
                                 (mvec (n_Cbn (s_nav s)) v))).
Proof. exact direction_moves_any. Qed.
(** every state reached by samples and corrections at which a correction is defined at all *)
Theorem C75_every_state : forall s0 gpst pos vn atti rate ops s,
  ins_run (init_pva s0 (make_nav gpst pos vn atti) rate) ops = Some s -> ops <> [] -> rates_defined (n_pos (s_nav s)) = true ->
  located s (vx (n_pos (s_nav s))) (vy (n_pos (s_nav s))) (vz (n_pos (s_nav s))).
Proof. exact history_located. Qed.
(** without slip nothing else moves *)
Theorem C75_place_in_step : forall s x lat lon h, agrees s lat lon h ->
  moves (after s x earth_place) (earth_place s) (vneg (local_vector lat lon (x_pos x))).
Proof. exact place_moves. Qed.
Theorem C75_velocity_in_step : forall s x lat lon h, agrees s lat lon h ->
  moves (after s x earth_velocity) (earth_velocity s) (vneg (local_vector lat lon (x_vel x))).
Proof. exact velocity_moves. Qed.
Theorem C75_attitude_in_step : forall s x lat lon h v, agrees s lat lon h ->
  moves (after s x (earth_direction v)) (earth_direction v s) (local_vector lat lon (cross (x_att x) (mvec (n_Cbn (s_nav s)) v))).
Proof. exact direction_moves. Qed.
(** with slip something does: corrections to the north move the place east or west too, so the part with the slip is needed *)
Theorem C75_slip_matters : forall s lat lon h x, located s lat lon h -> slip (n_Qne (s_nav s)) <> 0 -> x_pos x = V 1 0 0 ->
  ~ moves (after s x earth_place) (earth_place s) (vneg (local_vector lat lon (x_pos x))).
Proof. exact slip_spoils. Qed.
Print Assumptions C75_place.
Print Assumptions C75_velocity.
Print Assumptions C75_attitude.
Print Assumptions C75_every_state.
Print Assumptions C75_place_in_step.
Print Assumptions C75_velocity_in_step.
Print Assumptions C75_attitude_in_step.
Print Assumptions C75_slip_matters.
Example C75_located_initially : forall s0 gpst lat lon h vn atti rate, place_ok lat lon h ->
  let s := init_pva s0 (make_nav gpst (V lat lon h) vn atti) rate in located s lat lon h /\ slip (n_Qne (s_nav s)) = 0.
Proof. exact init_located. Qed.
Example C75_slip_case : forall s0 gpst vn atti rate, exists t,
  ins_run (init_pva s0 (make_nav gpst (V 0 0 0) vn atti) rate) [OpCorrect far_correction] = Some t /\
  located t (vx (n_pos (s_nav t))) (vy (n_pos (s_nav t))) (vz (n_pos (s_nav t))) /\ slip (n_Qne (s_nav t)) <> 0.
Proof. exact slip_case. Qed.
(** states that agree: every initial state away from the poles and the antimeridian, and every state at rest *)
Example C75_initial : forall s0 gpst lat lon h vn atti rate, place_ok lat lon h ->
  let s := init_pva s0 (make_nav gpst (V lat lon h) vn atti) rate in
  agrees s lat lon h /\ n_Cne (s_nav s) = lla_to_cne lat lon.
Proof. exact init_agrees. Qed.
Example C75_case : place_ok (PI / 6) 1 100.
Proof. exact place_case. Qed.
Example C75_rest : forall s lat lon h dt q a g, at_rest s lat lon h dt q a g -> place_ok lat lon h -> qnorm2 q = 1 -> agrees s lat lon h.
Proof. exact rest_agrees. Qed.

(** ** C76: the design matrix of a fix is the sensitivity of its innovation to the correction; the rest is the lever arm times
    the turn of the local axes *)
Theorem C76_fix : forall s x lat lon h lb fix_at, located s lat lon h -> n_Cne (s_nav s) = lla_to_cne lat lon ->
  moves (after s x (fun t => pos_z t lb fix_at)) (pos_z s lb fix_at)
    (vneg (vadd (design (pos_h s lb) x) (vadd (cross (mvec (n_Cbn (s_nav s)) lb) (frame_turn lat h (x_pos x)))
       (vscale (slip (n_Qne (s_nav s))) (slip_shift lat lon h (x_pos x)))))).
Proof. exact position_innovation_fresh. Qed.
(** the matrix of the local axes is the one of the place after every sample *)
Theorem C76_after_a_sample : forall s0 gpst pos vn atti rate ops x s,
  ins_run (init_pva s0 (make_nav gpst pos vn atti) rate) (ops ++ [OpSample x]) = Some s ->
  n_Cne (s_nav s) = lla_to_cne (vx (n_pos (s_nav s))) (vy (n_pos (s_nav s))).
Proof. exact history_fresh. Qed.
(** after a correction it is still the one from before (C75, C76: a second observation of the same epoch) *)
Theorem C76_fix_after_correction : forall s x lat lon h lb fix_at, located s lat lon h ->
  moves (after s x (fun t => pos_z t lb fix_at)) (pos_z s lb fix_at)
    (vsub (cross (vadd (x_att x) (frame_turn lat h (x_pos x))) (mvec (n_Cbn (s_nav s)) lb))
          (mvec (mtrans (n_Cne (s_nav s)))
            (local_vector lat lon (vadd (x_pos x) (vscale (slip (n_Qne (s_nav s))) (slip_shift lat lon h (x_pos x))))))).
Proof. exact position_innovation_any. Qed.
Theorem C76_fix_in_step : forall s x lat lon h lb fix_at, agrees s lat lon h -> n_Cne (s_nav s) = lla_to_cne lat lon ->
  moves (after s x (fun t => pos_z t lb fix_at)) (pos_z s lb fix_at)
    (vneg (vadd (design (pos_h s lb) x) (cross (mvec (n_Cbn (s_nav s)) lb) (frame_turn lat h (x_pos x))))).
Proof. exact position_innovation. Qed.
Theorem C76_rest_is_small : forall s lat lon h lb x, agrees s lat lon h ->
  vnorm (cross (mvec (n_Cbn (s_nav s)) lb) (frame_turn lat h x)) <= vnorm lb * vnorm x / ((RM lat + h) * cos lat).
Proof. exact lever_size. Qed.
(** [design] is what the matrix handed to the Kalman filter does *)
Theorem C76_design_is_the_matrix : forall a (f : nat -> nat -> mat) (x : 'cV[R]_15),
  mulmx (blocks f : 'M[R]_(a, 15)) x = column (fun r => design (f r) (err_of x)).
Proof. exact blocks_apply. Qed.
Print Assumptions C76_fix.
Print Assumptions C76_after_a_sample.
Print Assumptions C76_fix_after_correction.
Print Assumptions C76_fix_in_step.
Print Assumptions C76_rest_is_small.
Print Assumptions C76_design_is_the_matrix.

(** ** C77: the same for the velocity of the wheel (odometer and non-holonomic constraint) and for the zero velocity. The rest is
    the rotation of earth and local axes, turned, times the lever arm; for the zero velocity the turn of the axes times the velocity *)
Theorem C77_wheel : forall s x lat lon h o, located s lat lon h -> o_rate o * s_dt s = 1 ->
  let turn_all := vadd (x_att x) (frame_turn lat h (x_pos x)) in
  moves (after s x (fun t => wheel_velocity (rebiased s t) o)) (wheel_velocity s o)
    (vsub (mvec (Cbv o) (cross (mvec (mtrans (n_Cbn (s_nav s))) (cross turn_all (vadd (s_wie s) (s_wen s)))) (o_lb_wheel o)))
          (design (vel_h s o) x)).
Proof. exact wheel_innovation_any. Qed.
Theorem C77_zero_velocity : forall s x lat lon h, located s lat lon h ->
  moves (after s x (fun t => n_vn (s_nav t))) (n_vn (s_nav s))
    (vsub (cross (frame_turn lat h (x_pos x)) (n_vn (s_nav s))) (design zupt_h x)).
Proof. exact zupt_innovation_any. Qed.
Print Assumptions C77_wheel.
Print Assumptions C77_zero_velocity.

(** ** C78: between two samples the estimated errors follow the psi angle error equations, with the values of the state after
    the mechanisation of the sample *)
Theorem C78_error_model : forall s x t, propagate s x = Some t ->
  let i := f_ins t in let nav := s_nav i in let o := f_opt s in
  forward (f_ins s) x = Some i /\
  err_of (kX (f_kf t)) = error_step (s_dt i) (vx (n_pos nav)) (vz (n_pos nav)) (s_g i) (o_gt_corr o) (o_at_corr o)
    (n_vf nav) (s_wen i) (s_wie i) (n_Cbn nav) (err_of (kX (f_kf s))).
Proof. exact propagate_errors. Qed.
Theorem C78_transition_matrix : forall i o phi (x : 'cV[R]_15), transfer i o = Some phi ->
  let nav := s_nav i in
  err_of (mulmx phi x) = error_step (s_dt i) (vx (n_pos nav)) (vz (n_pos nav)) (s_g i) (o_gt_corr o) (o_at_corr o)
    (n_vf nav) (s_wen i) (s_wie i) (n_Cbn nav) (err_of x).
Proof. exact transfer_errors. Qed.
(** and none of the quantities the equations divide by is zero: the radii of curvature at the height, their mean, the two correlation times *)
Theorem C78_denominators : forall s x t, propagate s x = Some t ->
  let p := n_pos (s_nav (f_ins t)) in
  RM (vx p) + vz p <> 0 /\ RN (vx p) + vz p <> 0 /\ sqrt (RM (vx p) * RN (vx p)) + vz p <> 0 /\ o_gt_corr (f_opt s) <> 0 /\ o_at_corr (f_opt s) <> 0.
Proof. exact propagate_denominators. Qed.
Print Assumptions C78_denominators.
Print Assumptions C78_error_model.
Print Assumptions C78_transition_matrix.

(** ** C145: corrections keep the position quaternion and the place in step *)
(** to first order in the correction the slip changes in proportion to itself only: none appears where there was none *)
Theorem C145_slip_rate : forall s x lat lon h, located s lat lon h ->
  let k := slip (n_Qne (s_nav s)) in let d := frame_turn lat h (x_pos x) in
  exists g : R -> R, (exists r, 0 < r /\ forall e, Rabs e < r -> exists t, feedback s (err_scale e x) = Some t /\ slip (n_Qne (s_nav t)) = g e) /\
    g 0 = k /\ derivable_pt_lim g 0 (k * (tan (PI / 4 + lat / 2) * vy d - k / 2 * vx d)).
Proof. exact slip_moves. Qed.
(** one correction of any size, from a state without slip: the component of the east axis along the axis of the earth afterwards *)
Theorem C145_one_correction : forall s x t lat lon h, agrees s lat lon h -> feedback s x = Some t ->
  Rabs (m21 (quaternion_to_dcm (n_Qne (s_nav t)))) <= Rabs (vx (x_pos x) * vy (x_pos x)) / (2 * (RM lat + h) * (RN lat + h) * cos lat).
Proof. exact one_correction. Qed.
(** that component is the slip, up to the square of the first part of the quaternion *)
Theorem C145_slip_is_tilt : forall q, qnorm2 q = 1 -> qw q <> 0 -> m21 (quaternion_to_dcm q) = 2 * (qw q * qw q) * slip q.
Proof. exact tilt_slip. Qed.
Print Assumptions C145_slip_rate.
Print Assumptions C145_one_correction.
Print Assumptions C145_slip_is_tilt.
Example C145_case : forall s0 gpst vn atti rate, exists t,
  ins_run (init_pva s0 (make_nav gpst (V 0 0 0) vn atti) rate) [OpCorrect far_correction] = Some t /\
  located t (vx (n_pos (s_nav t))) (vy (n_pos (s_nav t))) (vz (n_pos (s_nav t))) /\ slip (n_Qne (s_nav t)) <> 0.
Proof. exact slip_case. Qed.
