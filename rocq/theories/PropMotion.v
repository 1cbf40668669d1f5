(** The strapdown mechanisation solves the equations of motion: C87, C88. *)
From Coq Require Import Reals.
From Verif Require Import RealMath EarthModel ConvertModel ConvertSpec SmoothModel InsModel InsRest JacobianSpec MotionSpec MotionWrap ConingProofs JacobianMain.
Local Open Scope R_scope.

(** [agrees s lat lon h]: the place of the state is (lat, lon, h), away from the poles and the antimeridian, and its matrices and
    quaternions belong to each other. One sample is processed with the interval e; over it the unit measures the mean specific force
    f e and the mean angular rate w e, over the sample before f0 e and w0 e, all of which settle as e gets small.
    [tends (stepped ... v) v0 dv]: v of the solution after the sample is v0 + e dv, to first order in e. *)

(** ** C87: as the interval gets small, the solution obeys the equations of strapdown navigation in earth-fixed axes:
    place' = velocity; velocity' = specific force (freed from bias and scale factor) + gravity - 2 earth rate x velocity;
    directions fixed to the unit turn with the measured rate (freed from bias and scale factor) less the earth's rate *)
Theorem C87_place_partial : forall s lat lon h f0 w0 a0 t f w, agrees s lat lon h ->
  settles a0 -> settles f0 -> settles w0 -> settles f -> settles w ->
  tends (stepped s f0 w0 a0 t f w earth_place) (earth_place s) (earth_velocity s).
Proof. exact place_step. Qed.
Theorem C87_geodetic_partial : forall s lat lon h f0 w0 a0 t f w, agrees s lat lon h ->
  settles a0 -> settles f0 -> settles w0 -> settles f -> settles w ->
  tends (stepped s f0 w0 a0 t f w (fun u => n_pos (s_nav u))) (V lat lon h)
    (V (vx (n_vn (s_nav s)) / (RM lat + h)) (vy (n_vn (s_nav s)) / ((RN lat + h) * cos lat)) (- vz (n_vn (s_nav s)))).
Proof. exact geodetic_step. Qed.
Theorem C87_velocity_partial : forall s lat lon h f0 w0 a0 t f w, agrees s lat lon h ->
  settles a0 -> settles f0 -> settles w0 -> settles f -> settles w ->
  tends (stepped s f0 w0 a0 t f w earth_velocity) (earth_velocity s)
    (vsub (vadd (to_earth s (mvec (n_Cbn (s_nav s)) (freed (f 0) (n_ab (s_nav s)) (n_as (s_nav s))))) (earth_gravity lat lon h))
          (vscale 2 (cross omega_ie_e (earth_velocity s)))).
Proof. exact velocity_step. Qed.
Theorem C87_attitude_partial : forall s lat lon h f0 w0 a0 t f w v, agrees s lat lon h ->
  settles a0 -> settles f0 -> settles w0 -> settles f -> settles w ->
  tends (stepped s f0 w0 a0 t f w (earth_direction v)) (earth_direction v s)
    (vsub (to_earth s (mvec (n_Cbn (s_nav s)) (cross (freed (w 0) (n_gb (s_nav s)) (n_gs (s_nav s))) v))) (cross omega_ie_e (earth_direction v s))).
Proof. exact direction_step. Qed.
(** what [tends] amounts to *)
Theorem C87_meaning : forall F v0 dv, tends F v0 dv ->
  forall eps, 0 < eps -> exists r, 0 < r /\ forall e, e <> 0 -> Rabs e < r -> exists v, F e = Some v /\
  Rabs ((vx v - vx v0) / e - vx dv) < eps /\ Rabs ((vy v - vy v0) / e - vy dv) < eps /\ Rabs ((vz v - vz v0) / e - vz dv) < eps.
Proof. exact tends_limit. Qed.
Print Assumptions C87_place_partial.
Print Assumptions C87_geodetic_partial.
Print Assumptions C87_velocity_partial.
Print Assumptions C87_attitude_partial.
Print Assumptions C87_meaning.
(** every initial state away from the poles and the antimeridian meets the hypotheses, and so do linearly changing rates *)
Example C87_case : forall s0 gpst vn atti rate,
  agrees (init_pva s0 (make_nav gpst (V (PI / 6) 1 100) vn atti) rate) (PI / 6) 1 100.
Proof. intros. exact (proj1 (init_agrees s0 gpst (PI / 6) 1 100 vn atti rate place_case)). Qed.
Example C87_rates : forall a b k, settles (fun e => linear a b (k * e)).
Proof. exact linear_settles. Qed.

(** ** C88: when angular rate and specific force change linearly over two sampling intervals, the coning and sculling corrections
    are exact: the rotation vector is the solution of Bortz' equation to second order, and velocity and place are those of a sample
    without rotation whose impulse is the integral of the force turned into the axes of the start of the interval *)
Theorem C88_coning : forall a b m T, (forall t, m_w m t = linear a b t) -> integrals m ->
  gyro_to_rv (m_alpha m T) (vneg (m_alpha m (- T))) = vadd (m_alpha m T) (m_sigma m T).
Proof. intros a b m T W I. exact (coning a b m W I T). Qed.
Theorem C88_sculling : forall a b c d m s t u,
  (forall t, m_w m t = linear a b t) -> (forall t, m_f m t = linear c d t) -> integrals m -> ideal s ->
  s_gyro_pre s = vneg (m_alpha m (- s_dt s)) -> s_acce_pre s = vneg (m_beta m (- s_dt s)) ->
  forward s (Imu t (m_alpha m (s_dt s)) (m_beta m (s_dt s))) = Some u ->
  exists v, forward (forgets s) (Imu t vzero (vadd (m_beta m (s_dt s)) (m_rho m (s_dt s)))) = Some v /\
    n_vn (s_nav u) = n_vn (s_nav v) /\ n_pos (s_nav u) = n_pos (s_nav v) /\ n_vf (s_nav u) = n_vf (s_nav v) /\ s_wie u = s_wie v /\ s_wen u = s_wen v /\
    n_Cbn (s_nav u) = quaternion_to_dcm (qnormalized (qmul (qmul (qconj (rv_to_quaternion (vscale (s_dt s) (vadd (s_wie u) (s_wen u))))) (n_Qbn (s_nav s)))
      (rv_to_quaternion (vadd (m_alpha m (s_dt s)) (m_sigma m (s_dt s)))))).
Proof. exact impulse. Qed.
Print Assumptions C88_coning.
Print Assumptions C88_sculling.
(** manoeuvres with any coefficients meet the hypotheses when the interval is short *)
Example C88_integrals : forall a b c d, integrals (manoeuvre_of a b c d).
Proof. exact manoeuvre_ok. Qed.
Example C88_case : forall s lat lon h a b c d t, agrees s lat lon h -> ideal s ->
  let m := manoeuvre_of a b c d in
  exists dt s' u, 0 < dt /\ s_dt s' = dt /\ ideal s' /\ n_pos (s_nav s') = n_pos (s_nav s) /\ n_vn (s_nav s') = n_vn (s_nav s) /\
    s_gyro_pre s' = vneg (m_alpha m (- dt)) /\ s_acce_pre s' = vneg (m_beta m (- dt)) /\
    forward s' (Imu t (m_alpha m dt) (m_beta m dt)) = Some u.
Proof. exact manoeuvre_case. Qed.
