(** Mechanisation, static detector and attitude filter: C36-C38, C45, C47. *)
From Coq Require Import Reals ZArith List Lra.
From Verif Require Import RealMath EarthModel ConvertModel ConvertSpec SmoothModel SmoothSpec SmoothProofs SmoothProofs2
  AhrsModel AhrsProofs InsModel InsSpec InsProofs InsRest.
Import ListNotations.
Open Scope R_scope.

(** ** C36 attitude through any history of samples and corrections; [Some] = no NaN or infinity so far *)
Theorem C36_rotation : forall s0 gpst pos vn atti rate ops s,
  ins_run (init_pva s0 (make_nav gpst pos vn atti) rate) ops = Some s ->
  qnorm2 (n_Qbn (s_nav s)) = 1 /\ n_Cbn (s_nav s) = quaternion_to_dcm (n_Qbn (s_nav s)) /\ rotation (n_Cbn (s_nav s)).
Proof. exact attitude_history. Qed.
(** the Euler angles are those of the matrix; away from the vertical they rebuild it *)
Theorem C36_euler : forall s0 gpst pos vn atti rate ops s,
  ins_run (init_pva s0 (make_nav gpst pos vn atti) rate) ops = Some s -> ops <> [] ->
  let C := n_Cbn (s_nav s) in
  n_atti (s_nav s) = dcm_to_euler C /\
  (- (999 / 1000) < m20 C < 999 / 1000 ->
   exists roll pitch heading, n_atti (s_nav s) = Eu (Fin roll) (Fin pitch) heading /\
     - (PI / 2) < pitch < PI / 2 /\ attitude roll pitch heading = C).
Proof. exact euler_history. Qed.
(** after each sample the position matrix belongs to the position *)
Theorem C36_position_matrix : forall s0 gpst pos vn atti rate ops x s,
  ins_run (init_pva s0 (make_nav gpst pos vn atti) rate) (ops ++ [OpSample x]) = Some s ->
  n_Cne (s_nav s) = lla_to_cne (vx (n_pos (s_nav s))) (vy (n_pos (s_nav s))).
Proof. exact position_matrix_history. Qed.
(** and before the first sample, when a fix may already be used *)
Theorem C36_position_matrix_start : forall s0 gpst pos vn atti rate,
  let s := init_pva s0 (make_nav gpst pos vn atti) rate in
  n_pos (s_nav s) = pos /\ n_Cne (s_nav s) = lla_to_cne (vx pos) (vy pos).
Proof. intros; split; reflexivity. Qed.
Print Assumptions C36_position_matrix_start.
Print Assumptions C36_rotation.
Print Assumptions C36_euler.
Print Assumptions C36_position_matrix.
(** a history that is defined: one sample at the equator *)
Example C36_case : forall s0, exists s, ins_run (init_pva s0 (make_nav 0 vzero vzero vzero) 1)
    (rest_samples (rest_gyro (euler_to_dcm vzero) 0 1) (rest_force (euler_to_dcm vzero) 0 0 1) [1]) = Some s /\
    vz (n_vn (s_nav s)) < 0.
Proof. exact equator_moves. Qed.

(** ** C37 static detector: sw samples required, window w, threshold th *)
Theorem C37_flag : forall th sw w h t, (0 <= sw)%Z -> (1 <= w)%Z -> smooth_run (smooth_new th sw w) h = Some t ->
  (is_static t = true <->
   (sw < Z.of_nat (length h))%Z /\ forall j, (Z.of_nat j <= sw)%Z -> spread w (firstn (length h - j) h) <= th).
Proof. exact static_spread. Qed.
Theorem C37_one_sample_clears : forall th sw w h x t, (0 <= sw)%Z -> (1 <= w)%Z ->
  smooth_run (smooth_new th sw w) (h ++ [x]) = Some t -> th < spread w (h ++ [x]) -> is_static t = false.
Proof. exact clears. Qed.
Theorem C37_spread : forall th sw w h t, (1 <= w)%Z -> smooth_run (smooth_new th sw w) h = Some t -> get_std t = spread w h.
Proof. exact spread_read_out. Qed.
(** the detector works for up to 2^31 - 1 samples; the next one overflows its counter *)
Theorem C37_defined_partial : forall th sw w h, (Z.of_nat (length h) <= 2147483647)%Z ->
  exists t, smooth_run (smooth_new th sw w) h = Some t.
Proof. exact run_defined. Qed.
Theorem C37_overflow_refuted : forall th sw w h, (2147483647 < Z.of_nat (length h))%Z -> smooth_run (smooth_new th sw w) h = None.
Proof. exact run_overflow. Qed.
Print Assumptions C37_flag.
Print Assumptions C37_one_sample_clears.
Print Assumptions C37_spread.
Print Assumptions C37_defined_partial.
Print Assumptions C37_overflow_refuted.
Example C37_case : exists t, smooth_run (smooth_new (1 / 1000) 200 30) (repeat still 201) = Some t /\ is_static t = true.
Proof. exact case_static. Qed.

(** ** C38 smoothed output *)
Theorem C38_in_range : forall a th sw w h t lo hi, (1 <= w)%Z -> h <> [] -> smooth_run (smooth_new th sw w) h = Some t ->
  ((forall x, In x h -> lo <= comp a (i_acce x) <= hi) -> lo <= comp a (i_acce (s_ave t)) <= hi) /\
  ((forall x, In x h -> lo <= comp a (i_gyro x) <= hi) -> lo <= comp a (i_gyro (s_ave t)) <= hi).
Proof. exact mean_in_range. Qed.
Theorem C38_first_window : forall a th sw w h t, h <> [] -> (Z.of_nat (length h) <= w)%Z ->
  smooth_run (smooth_new th sw w) h = Some t ->
  comp a (i_acce (s_ave t)) = sum_comp a i_acce h / INR (length h) /\
  comp a (i_gyro (s_ave t)) = sum_comp a i_gyro h / INR (length h).
Proof. exact mean_first_window. Qed.
Theorem C38_weighted : forall a th sw w h t, (1 <= w)%Z -> smooth_run (smooth_new th sw w) h = Some t ->
  comp a (i_acce (s_ave t)) = running_mean w (map (fun x => comp a (i_acce x)) h) /\
  comp a (i_gyro (s_ave t)) = running_mean w (map (fun x => comp a (i_gyro x)) h) /\
  comp a (s_var_acce t) = running_var w (map (fun x => comp a (i_acce x)) h) /\
  comp a (s_var_gyro t) = running_var w (map (fun x => comp a (i_gyro x)) h).
Proof. exact averages. Qed.
Theorem C38_variance : forall a th sw w h t, (1 <= w)%Z -> smooth_run (smooth_new th sw w) h = Some t ->
  0 <= comp a (s_var_acce t) /\ 0 <= comp a (s_var_gyro t).
Proof. exact var_nonneg. Qed.
Theorem C38_constant : forall th sw w h t g f, (1 <= w)%Z -> h <> [] -> smooth_run (smooth_new th sw w) h = Some t ->
  (forall x, In x h -> i_gyro x = g /\ i_acce x = f) ->
  i_gyro (s_ave t) = g /\ i_acce (s_ave t) = f /\ s_var_acce t = vzero /\ s_var_gyro t = vzero /\ get_std t = 0.
Proof. exact constant_signal. Qed.
Print Assumptions C38_in_range.
Print Assumptions C38_first_window.
Print Assumptions C38_weighted.
Print Assumptions C38_variance.
Print Assumptions C38_constant.

(** ** C45 attitude filter; [unit_op]: attitudes handed over as quaternions are unit *)
Theorem C45_unit_and_bounded : forall dt ops, Forall unit_op ops ->
  let s := ahrs_run (ahrs_new dt) ops in
  qnorm2 (a_qnb s) = 1 /\ Rabs (vx (a_int s)) <= PI / 180 /\ Rabs (vy (a_int s)) <= PI / 180 /\ Rabs (vz (a_int s)) <= PI / 180.
Proof. exact ahrs_invariant. Qed.
Theorem C45_matrix : forall dt ops o, Forall unit_op ops -> sound_op o ->
  let s := ahrs_run (ahrs_new dt) (ops ++ [o]) in
  a_Cnb s = quaternion_to_dcm (a_qnb s) /\ rotation (a_Cnb s).
Proof. exact ahrs_matrix. Qed.
(** an attitude set as a quaternion is not what the filter reports *)
Theorem C45_set_quaternion_refuted : ~ (forall dt q, qnorm2 q = 1 ->
  ahrs_atti (ahrs_set_quat (ahrs_new dt) q) = dcm_to_euler (quaternion_to_dcm q)).
Proof. exact ahrs_stale. Qed.
(** and the update with a magnetometer does not keep the norm *)
Theorem C45_magnetometer_refuted : ~ (forall s gyro acc mag, qnorm2 (a_qnb s) = 1 -> a_Cnb s = quaternion_to_dcm (a_qnb s) ->
  qnorm2 (a_qnb (ahrs_update_mag s gyro acc mag)) = 1).
Proof. exact ahrs_mag_norm. Qed.
Print Assumptions C45_unit_and_bounded.
Print Assumptions C45_matrix.
Print Assumptions C45_set_quaternion_refuted.
Print Assumptions C45_magnetometer_refuted.
Example C45_case : Forall unit_op [OpEuler (V 1 0 2); OpQuat (Q (3 / 5) 0 (4 / 5) 0); OpImu still] /\ sound_op (OpImu still).
Proof. repeat constructor. unfold unit_op, qnorm2; simpl; field. Qed.

(** ** C47 a unit at rest; [rest_bound] is a quarter of the squared turn of the earth in one epoch times g dt *)
(** there is a specific force within that bound of the true one for which position, velocity and attitude stay
    exactly as they are, for any number of epochs *)
Theorem C47_rests_partial : forall s0 time lat lon h atti rate,
  - (PI / 2) < lat < PI / 2 -> - PI < lon < PI -> -6000000 < h -> 0 < rate ->
  let dt := 1 / rate in let C := euler_to_dcm atti in
  exists acce, vnorm (vsub acce (rest_force C lat h dt)) <= rest_bound lat h dt /\
    forall times, exists s,
      ins_run (init_pva s0 (make_nav time (V lat lon h) vzero atti) rate) (rest_samples (rest_gyro C lat dt) acce times) = Some s /\
      n_pos (s_nav s) = V lat lon h /\ n_vn (s_nav s) = vzero /\ n_Cbn (s_nav s) = C /\
      n_Qbn (s_nav s) = euler_to_quaternion atti.
Proof. exact rests. Qed.
(** with the true specific force the first epoch gives at most that velocity *)
Theorem C47_first_epoch_partial : forall s0 time t1 lat lon h atti rate s,
  - (PI / 2) < lat < PI / 2 -> - PI < lon < PI -> -6000000 < h -> 0 < rate ->
  let dt := 1 / rate in let C := euler_to_dcm atti in
  ins_run (init_pva s0 (make_nav time (V lat lon h) vzero atti) rate)
    (rest_samples (rest_gyro C lat dt) (rest_force C lat h dt) [t1]) = Some s ->
  vnorm (n_vn (s_nav s)) <= rest_bound lat h dt /\ vz (n_pos (s_nav s)) = h - vz (n_vn (s_nav s)) / 2 * dt.
Proof. exact first_epoch_velocity. Qed.
(** but it does give one: on the equator the unit starts to rise *)
Theorem C47_exact_refuted : forall s0, exists s, ins_run (init_pva s0 (make_nav 0 vzero vzero vzero) 1)
    (rest_samples (rest_gyro (euler_to_dcm vzero) 0 1) (rest_force (euler_to_dcm vzero) 0 0 1) [1]) = Some s /\
    vz (n_vn (s_nav s)) < 0.
Proof. exact equator_moves. Qed.
Print Assumptions C47_rests_partial.
Print Assumptions C47_first_epoch_partial.
Print Assumptions C47_exact_refuted.
Example C47_case : - (PI / 2) < 1 / 2 < PI / 2 /\ - PI < 2 < PI /\ -6000000 < 100 /\ 0 < 100.
Proof. assert (P := MathWrap.PI_gt_3). repeat split; lra. Qed.
