(** Tools/InsCore.py, Tools/Earth.py, Tools/ErrorAnalyser.py: conversions, mechanisation and lever arm in Python: C153-C159. *)
From Coq Require Import Reals List Lra Psatz.
From Verif Require Import RealMath EarthModel ConvertModel ConvertSpec ConvertProofs MathWrap SmoothModel InsModel InsSpec InsRest
  PyInsModel PyInsProofs PyEcef.
Import ListNotations.
Open Scope R_scope.

(** ** C153 the Python functions against those of the library *)
Theorem C153_earth : forall lat h vn ve vd lon,
  y_RM lat = RM lat /\ y_RN lat = RN lat /\ y_g lat h = gravity lat h /\ y_ie lat = omega_ie_n lat /\
  y_en vn ve h lat = wen_opt (V vn ve vd) (V lat lon h).
Proof. intros. repeat split; [apply y_g_same|apply y_en_same]. Qed.
Theorem C153_place : forall lat lon h q,
  y_lla_to_ecef (V lat lon h) = lla_to_xyz (V lat lon h) /\ y_lla_to_cne lat lon = lla_to_cne lat lon /\
  y_lla_to_qne lat lon = lla_to_qne lat lon /\ y_qne_to_lla q = lla_opt q.
Proof. intros. repeat split; [apply y_qne_same|apply y_lla_same]. Qed.
Theorem C153_attitude : forall r p h c v w,
  y_euler_to_dcm r p h = euler_to_dcm (V r p h) /\ y_euler_to_quaternion v = euler_to_quaternion v /\
  y_dcm_to_euler c = dcm_to_euler c /\ y_rv_to_quaternion v = rv_to_quaternion v /\ y_rv_to_dcm v = rv_to_DCM v /\
  y_gyro_to_rv v w = gyro_to_rv v w.
Proof. intros. repeat split; [apply y_rv_same|apply y_rv_dcm_same]. Qed.
Theorem C153_quaternion : forall p q, y_mul p q = qmul p q /\ (qnorm2 q = 1 -> y_quaternion_to_dcm q = quaternion_to_dcm q) /\
  (0 < qnorm2 q -> y_normalize q = Some (qnormalized q)).
Proof. intros. split; [apply y_mul_same|]. split; [apply y_dcm_unit|apply y_normalize_same]. Qed.
(** for other quaternions the matrices differ *)
Theorem C153_quaternion_rest : forall q, y_quaternion_to_dcm q = quaternion_to_dcm q <-> qnorm2 q = 1.
Proof.
  intros q. split; [|apply y_dcm_unit]. rewrite y_dcm_same. intros H. assert (E := f_equal m00 H). cbn in E. lra.
Qed.
(** compensation of bias and scale factor: each component x becomes (1 - scale) (x - bias dt), for gyroscopes and accelerometers, as in
    the library at the same interval *)
Theorem C153_compensation : forall x n s, let y := y_compensate x n (s_dt s) in
  i_gpst y = i_gpst x /\ i_gyro y = compensate s (i_gyro x) (y_gb n) (y_gs n) /\ i_acce y = compensate s (i_acce x) (y_ab n) (y_as n) /\
  forall gx gy gz ax ay az, i_gyro x = V gx gy gz -> i_acce x = V ax ay az -> forall sx sy sz bx by' bz, y_gs n = V sx sy sz -> y_gb n = V bx by' bz ->
    forall px py pz cx cy cz, y_as n = V px py pz -> y_ab n = V cx cy cz ->
    i_gyro y = V ((1 - sx) * (gx - bx * s_dt s)) ((1 - sy) * (gy - by' * s_dt s)) ((1 - sz) * (gz - bz * s_dt s)) /\
    i_acce y = V ((1 - px) * (ax - cx * s_dt s)) ((1 - py) * (ay - cy * s_dt s)) ((1 - pz) * (az - cz * s_dt s)).
Proof.
  intros x n s y. split; [reflexivity|]. split; [reflexivity|]. split; [reflexivity|].
  intros gx gy gz ax ay az E1 E2 sx sy sz bx by' bz E3 E4 px py pz cx cy cz E5 E6. unfold y, y_compensate. cbn [i_gyro i_acce].
  rewrite E1, E2, E3, E4, E5, E6. split; apply vec_ext; cbn; ring.
Qed.
Print Assumptions C153_earth.
Print Assumptions C153_place.
Print Assumptions C153_attitude.
Print Assumptions C153_quaternion.
Print Assumptions C153_quaternion_rest.
Print Assumptions C153_compensation.
Example C153_case : qnorm2 (Q (6 / 10) 0 (8 / 10) 0) = 1 /\ y_quaternion_to_dcm (Q 2 0 0 0) = M 4 0 0 0 4 0 0 0 4.
Proof. split; [unfold qnorm2; simpl; lra|]. unfold y_quaternion_to_dcm. apply mat_ext; simpl; ring. Qed.

(** ** C154 the attitude of the Python mechanisation, through any samples *)
(** the matrix is a rotation times the squared length of the quaternion, which starts at one, does not grow, and
    loses at most the share [series_loss PI] twice per sample *)
Theorem C154_scaled_partial : forall t lat lon h vn att last xs n, y_run (y_nav t lat lon h vn att) last xs = Some n ->
  (exists c, rotation c /\ y_Cbn n = mscale (qnorm2 (y_Qbn n)) c) /\
  (1 - (PI / 2) ^ 8 / 20160) ^ (2 * length xs) <= qnorm2 (y_Qbn n) <= 1.
Proof.
  intros t lat lon h vn att last xs n H. destruct (y_nav_ok t lat lon h vn att) as [O N].
  destruct (y_run_ok xs _ last n H O) as [(_ & C) B]. rewrite N in B. split; [exact C|]. unfold series_loss in B. lra.
Qed.
(** but a unit that turns loses length with every sample, without bound *)
Theorem C154_shrinks_refuted : forall g, g <> vzero -> vnorm g < PI -> exists r, 0 < r < 1 /\
  forall t lat lon h vn att a xs n, spinning g t xs ->
    y_run (y_nav t lat lon h vn att) (Imu t g a) xs = Some n -> qnorm2 (y_Qbn n) <= r ^ length xs.
Proof.
  intros g G L. exists (qnorm2 (rv_to_quaternion g)). split; [split; [apply rv_norm_pos|apply rv_norm_lt; assumption]|].
  intros t lat lon h vn att a xs n S H. assert (B := y_spin g xs _ _ n H eq_refl eq_refl eq_refl S).
  rewrite (proj2 (y_nav_ok t lat lon h vn att)), Rmult_1_r in B. exact B.
Qed.
Print Assumptions C154_scaled_partial.
Print Assumptions C154_shrinks_refuted.

(** ** C156 a unit at rest in the Python mechanisation *)
(** with a specific force within [rest_bound] of the true one the first sample keeps place and velocity, and scales the
    attitude matrix *)
Theorem C156_first_sample_partial : forall t0 lat lon h att dt, -90 < lat < 90 -> -180 < lon < 180 -> -6000000 < h ->
  1 / 10000 <= dt -> omega_e * dt < PI ->
  let C := euler_to_dcm (V (deg (vx att)) (deg (vy att)) (deg (vz att))) in
  exists acce, vnorm (vsub acce (rest_force C (deg lat) h dt)) <= rest_bound (deg lat) h dt /\
  exists n k, y_run (y_nav t0 lat lon h vzero att) (Imu t0 vzero vzero) [Imu (t0 + dt) (rest_gyro C (deg lat) dt) acce] = Some n /\
    1 - (omega_e * dt / 2) ^ 8 / 20160 <= k < 1 /\
    y_lat n = deg lat /\ y_lon n = deg lon /\ y_h n = h /\ y_Vn n = vzero /\ y_Cbn n = mscale (k * k) C.
Proof.
  intros t0 lat lon h att dt H1 H2 H3 H4 H5 C. destruct (py_rests t0 lat lon h att dt H1 H2 H3 H4 H5) as (a & A & n1 & n2 & k & R1 & _ & K & X & _).
  exists a. split; [exact A|]. exists n1, k. split; [exact R1|]. split; [exact K|exact X].
Qed.
(** the second one lets it fall, because of the length that the first one lost *)
Theorem C156_second_sample_refuted : forall t0 lat lon h att dt, -90 < lat < 90 -> -180 < lon < 180 -> -6000000 < h ->
  1 / 10000 <= dt -> omega_e * dt < PI ->
  let C := euler_to_dcm (V (deg (vx att)) (deg (vy att)) (deg (vz att))) in
  exists acce, vnorm (vsub acce (rest_force C (deg lat) h dt)) <= rest_bound (deg lat) h dt /\
  let sample t := Imu t (rest_gyro C (deg lat) dt) acce in
  exists n k, y_run (y_nav t0 lat lon h vzero att) (Imu t0 vzero vzero) [sample (t0 + dt); sample (t0 + dt + dt)] = Some n /\
    k < 1 /\ y_Vn n = V 0 0 ((1 - k * k) * (gravity (deg lat) h * dt)) /\ 0 < vz (y_Vn n) /\ y_h n < h.
Proof.
  intros t0 lat lon h att dt H1 H2 H3 H4 H5 C. destruct (py_rests t0 lat lon h att dt H1 H2 H3 H4 H5) as (a & A & n1 & n2 & k & _ & R2 & K & _ & X).
  exists a. split; [exact A|]. exists n2, k. split; [exact R2|]. destruct X as (_ & _ & X3 & X4 & X5).
  split; [apply K|]. split; [exact X4|]. split; [exact X5|exact X3].
Qed.
Print Assumptions C156_first_sample_partial.
Print Assumptions C156_second_sample_refuted.
Example C156_case : -90 < 30 < 90 /\ -180 < 114 < 180 /\ -6000000 < 20 /\ 1 / 10000 <= 1 / 100 /\ omega_e * (1 / 100) < PI.
Proof. assert (P := PI_gt_3). unfold omega_e. repeat split; lra. Qed.
(** [C154]: such a unit is one that turns *)
Example C154_case : exists n c, y_run (y_nav 0 30 114 20 vzero vzero) (Imu 0 vzero vzero) [c] = Some n /\
  i_gyro c <> vzero /\ qnorm2 (y_Qbn n) <= 1.
Proof.
  destruct C156_case as (H1 & H2 & H3 & H4 & H5).
  destruct (C156_first_sample_partial 0 30 114 20 vzero (1 / 100) H1 H2 H3 H4 H5) as (a & _ & n & k & R & _).
  exists n, (Imu (0 + 1 / 100) (rest_gyro (euler_to_dcm (V (deg 0) (deg 0) (deg 0))) (deg 30) (1 / 100)) a).
  split; [exact R|]. split; [|apply (C154_scaled_partial _ _ _ _ _ _ _ _ _ R)].
  cbn [i_gyro]. intros E. assert (P := PI_RGT_0).
  assert (RC : rotation (euler_to_dcm (V (deg 0) (deg 0) (deg 0)))) by (rewrite <- euler_dcm_quaternion; apply dcm_rotation, euler_quaternion_unit).
  assert (N := turn_size (deg 30) (1 / 100)).
  assert (X := dcm_back _ (earth_turn (deg 30) (1 / 100)) RC). unfold rest_gyro in E. rewrite E in X. rewrite <- X in N.
  revert N. unfold dot. cbn. unfold omega_e. lra.
Qed.

(** every unit that rests on the rotating earth: one sample, and the matrix is no rotation *)
Theorem C154_no_rotation_refuted : forall t0 lat lon h att dt, -90 < lat < 90 -> -180 < lon < 180 -> -6000000 < h ->
  1 / 10000 <= dt -> omega_e * dt < PI ->
  exists x n, y_run (y_nav t0 lat lon h vzero att) (Imu t0 vzero vzero) [x] = Some n /\ ~ rotation (y_Cbn n).
Proof.
  intros t0 lat lon h att dt H1 H2 H3 H4 H5.
  destruct (C156_first_sample_partial t0 lat lon h att dt H1 H2 H3 H4 H5) as (a & _ & n & k & R & K & _ & _ & _ & _ & E).
  eexists _, n. split; [exact R|]. rewrite E. set (C := euler_to_dcm _).
  assert (RC : rotation C) by (unfold C; rewrite <- euler_dcm_quaternion; apply dcm_rotation, euler_quaternion_unit).
  intros (A & _ & _). destruct RC as (B & _ & _).
  assert (X := f_equal m00 A). assert (Y := f_equal m00 B). destruct C. cbn in X, Y.
  assert (K0 : 0 < k).
  { assert (L := loss_PI). unfold series_loss in L. assert ((omega_e * dt / 2) ^ 8 <= (PI / 2) ^ 8).
    { apply pow_incr. assert (0 < omega_e) by (unfold omega_e; lra). assert (0 < omega_e * dt) by (apply Rmult_lt_0_compat; lra). lra. }
    lra. }
  assert (Z : (k * k) * (k * k) = 1) by (rewrite <- X; ring_simplify; ring_simplify in Y; nra).
  assert (k * k < 1) by nra. nra.
Qed.
Print Assumptions C154_no_rotation_refuted.

(** ** C155 the state that is passed to a step *)
Theorem C155_same_object_refuted : forall m cur last r m' r', y_call m cur last r = Some (m', r') ->
  r' = r /\ y_distance (m' r) (m' r') = vzero /\ Some (m' r) = y_mechanise cur last (m r).
Proof.
  intros m cur last r m' r' H. destruct (y_call_alias _ _ _ _ _ _ H) as (-> & E & _). split; [reflexivity|]. split; [apply y_distance_self|exact E].
Qed.
Theorem C155_other_objects_partial : forall m cur last r m' r' k, y_call m cur last r = Some (m', r') -> k <> r -> m' k = m k.
Proof. intros m cur last r m' r' k H. destruct (y_call_alias _ _ _ _ _ _ H) as (_ & _ & X). apply X. Qed.
Print Assumptions C155_same_object_refuted.
Print Assumptions C155_other_objects_partial.
(** a call that changes the object *)
Example C155_case : exists c m m' r', y_call m c (Imu 0 vzero vzero) 7 = Some (m', r') /\ m' 7%nat <> m 7%nat.
Proof.
  destruct C156_case as (H1 & H2 & H3 & H4 & H5).
  destruct (C156_second_sample_refuted 0 30 114 20 vzero (1 / 100) H1 H2 H3 H4 H5) as (a & _ & n & k & R & _ & _ & _ & Hh).
  cbn [y_run] in R. destruct (y_mechanise _ (Imu 0 vzero vzero) _) as [n1|] eqn:E1; [|discriminate]. cbn [bind] in R.
  set (c1 := Imu (0 + 1 / 100) _ a) in *. exists c1, (fun _ => y_nav 0 30 114 20 vzero vzero).
  unfold y_call. rewrite E1. eexists _, _. split; [reflexivity|]. cbn [Nat.eqb]. intros X.
  assert (T := y_step_time c1 _ _ _ E1). rewrite X in T. cbn in T. rewrite Rabs_pos_eq in T by lra. specialize (T ltac:(lra)). lra.
Qed.

(** ** C157 from earth-centred coordinates to latitude, longitude and height *)
Theorem C157_accuracy : forall xyz, 6200000 <= vnorm xyz -> 0 < vx xyz * vx xyz + vy xyz * vy xyz -> ~ (vy xyz = 0 /\ vx xyz < 0) ->
  exists lla, y_ecef_to_lla xyz = Some (lla, true) /\ vnorm (vsub (lla_to_xyz lla) xyz) <= 1 / 10 ^ 9 /\
    - (PI / 2) < vx lla < PI / 2 /\ - PI < vy lla <= PI.
Proof.
  intros xyz H HP HA. destruct (ecef_returns xyz H HP HA) as (l & E & C & L & O). exists l. split; [exact E|]. split; [exact C|].
  split; [exact L|]. rewrite O. apply atan2_range.
Qed.
Theorem C157_roundtrip : forall lat lon h, - (PI / 2) < lat < PI / 2 -> - PI < lon < PI -> -100000 <= h ->
  exists lla, y_ecef_to_lla (lla_to_xyz (V lat lon h)) = Some (lla, true) /\
    vnorm (vsub (lla_to_xyz lla) (lla_to_xyz (V lat lon h))) <= 1 / 10 ^ 9 /\ vy lla = lon.
Proof. exact ecef_roundtrip. Qed.
(** on the meridian of 180 degrees the result is a point on the other side of the earth *)
Theorem C157_antimeridian_refuted : forall x z, x < 0 -> 6200000 <= vnorm (V x 0 z) ->
  exists lla, y_ecef_to_lla (V x 0 z) = Some (lla, true) /\ vy lla = 0 /\ - x - 1 / 10 ^ 9 <= vx (lla_to_xyz lla).
Proof. exact ecef_antimeridian. Qed.
(** on the axis of the earth there is no finite result *)
Theorem C157_poles_refuted : forall z, y_ecef_to_lla (V 0 0 z) = None.
Proof. exact ecef_axis. Qed.
Print Assumptions C157_accuracy.
Print Assumptions C157_roundtrip.
Print Assumptions C157_antimeridian_refuted.
Print Assumptions C157_poles_refuted.
Example C157_case : 6200000 <= vnorm (V 3000000 4000000 (-5000000)) /\ 6200000 <= vnorm (V (-6378137) 0 0).
Proof.
  split; unfold vnorm; rewrite <- (sqrt_square 6200000) by lra; apply sqrt_le_1_alt; unfold dot; cbn [vx vy vz]; lra.
Qed.

(** ** C158 the lever arm of the reference: the point that is moved by the offset, seen in the axes of the vehicle *)
Theorem C158_moved : forall lat lon h roll pitch yaw offset,
  let t := vadd (lla_to_xyz (V (deg lat) (deg lon) h))
             (mvec (lla_to_cne (deg lat) (deg lon)) (mvec (euler_to_dcm (V (deg roll) (deg pitch) (deg yaw))) offset)) in
  6200000 <= vnorm t -> 0 < vx t * vx t + vy t * vy t -> ~ (vy t = 0 /\ vx t < 0) ->
  exists nav, y_lever (V lat lon h) (V roll pitch yaw) offset = Some nav /\
    vnorm (vsub (lla_to_xyz (V (deg (vx nav)) (deg (vy nav)) (vz nav))) t) <= 1 / 10 ^ 9 /\ -90 < vx nav < 90 /\ -180 < vy nav <= 180.
Proof. exact lever_moves. Qed.
Print Assumptions C158_moved.
(** the equator, heading north, two metres forward *)
Example C158_case : let t := vadd (lla_to_xyz (V (deg 0) (deg 0) 0))
    (mvec (lla_to_cne (deg 0) (deg 0)) (mvec (euler_to_dcm (V (deg 0) (deg 0) (deg 0))) (V 2 0 0))) in
  6200000 <= vnorm t /\ 0 < vx t * vx t + vy t * vy t /\ ~ (vy t = 0 /\ vx t < 0).
Proof.
  assert (E : deg 0 = 0) by (unfold deg, Rdiv; ring). rewrite E. unfold lla_to_xyz, lla_to_cne, euler_to_dcm, RN. cbv zeta. cbn [vx vy vz].
  rewrite sin_0, cos_0. cbn. replace (1 - e2 * 0 * 0) with 1 by ring. rewrite sqrt_1.
  unfold semi_major. split; [|split; [lra|intros [_ A]; lra]].
  unfold vnorm. rewrite <- (sqrt_square 6200000) by lra. apply sqrt_le_1_alt. unfold dot; cbn. lra.
Qed.

(** ** C159 samples that are not in order, in the Python mechanisation *)
Theorem C159_duplicate_partial : forall cur last n, Rabs (i_gpst cur - y_time n) < 1 / 10000 -> y_mechanise cur last n = Some n.
Proof. exact y_drop. Qed.
Theorem C159_time_partial : forall cur last n n', y_mechanise cur last n = Some n' -> 1 / 10000 <= Rabs (i_gpst cur - y_time n) ->
  y_time n' = i_gpst cur.
Proof. exact y_step_time. Qed.
Theorem C159_backwards_refuted : forall t0 lat lon h att back, -90 < lat < 90 -> -180 < lon < 180 -> -6000000 < h -> 1 / 10000 <= back ->
  exists g a n, y_mechanise (Imu (t0 - back) g a) (Imu t0 vzero vzero) (y_nav t0 lat lon h vzero att) = Some n /\ y_time n = t0 - back.
Proof. exact y_backwards. Qed.
Print Assumptions C159_duplicate_partial.
Print Assumptions C159_time_partial.
Print Assumptions C159_backwards_refuted.
Example C159_case : Rabs (5 / 100000 - 0) < 1 / 10000 /\ 1 / 10000 <= Rabs (3 - 5).
Proof. split; unfold Rabs; destruct (Rcase_abs _); lra. Qed.
