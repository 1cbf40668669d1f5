(** The loosely coupled filter: C19, C22 to C26, C48, C62 to C67.
    Histories are lists of calls (IMU samples, fixes, velocities, barometric heights) in any order; [Some] means that no
    number became infinite or NaN and no counter overflowed. Over the reals. *)
From Coq Require Import Reals ZArith List Lia Lra.
From mathcomp Require Import all_ssreflect ssralg matrix.
From Verif Require Import RealMath EarthModel ConvertModel ConvertSpec SmoothModel InsModel InsSpec InsRest InsRest2 FusionBase
  Rfield KalmanModel KalmanSpec FusionModel FusionSpec FusionProofs FusionFeed FusionCov FusionRest FusionFix FusionForget
  FusionHeight FusionInno FusionZupta FusionCases FusionParts.
Import GRing.Theory.
Local Open Scope ring_scope.

(** ** C19 *)
Theorem C19_symmetric : forall s0 nav o cs s t, initialize s0 nav o = Some s -> run_calls s cs = Some t ->
  symmetric (kP (f_kf t)).
Proof. exact history_symmetric. Qed.
Print Assumptions C19_symmetric.
(** a unit at rest on the equator with all constraints on: any number of samples *)
Example C19_case : forall std ts, (Z.of_nat (length ts) <= int_max)%Z ->
  exists s, initialize (fusion_new case_ins (case_opt 0 true)) (case_nav std) (case_opt 0 true) = Some s /\
  exists2 t, run_calls s (List.map (fun t => CallImu (case_sample 0 t)) ts) = Some t &
    n_pos (s_nav (f_ins t)) = vzero /\ n_vn (s_nav (f_ins t)) = vzero.
Proof. move=> std ts h. eexists; split; [exact: case_init|exact: case_history]. Qed.

(** ** C22: refuted. Sure of position and velocity at the start, the first sample leaves the position without variance
    but correlated with the velocity *)
Theorem C22_positive_semidefinite_refuted : forall s0 nav o s x t, (0 <= f_flag s0)%Z -> unconstrained o ->
  n_pos_std nav = vzero -> n_vel_std nav = vzero -> o_vrw o <> IZR 0 ->
  initialize s0 nav o = Some s -> time_update s x = Some t ->
  kP (f_kf t) (st 0) (st 0) = 0 /\
  kP (f_kf t) (st 0) (st 3) = Rdiv (Rmult (Rmult (Rdiv 1 (o_rate o)) (Rdiv 1 (o_rate o))) (Rmult (o_vrw o) (o_vrw o))) 2 /\
  ~ psd (kP (f_kf t)).
Proof. exact first_epoch_not_psd. Qed.
(** the variance of the north velocity after an exact start, one sample and one fix: negative for a precise fix *)
Theorem C22_negative_variance_refuted : forall s0 nav o s x t g, (0 <= f_flag s0)%Z -> unconstrained o ->
  n_pos_std nav = vzero -> n_vel_std nav = vzero -> n_att_std nav = vzero -> o_gb_std o = vzero -> o_ab_std o = vzero ->
  o_lb_gnss o = vzero ->
  initialize s0 nav o = Some s -> time_update s x = Some t -> fix_mode (g_mode g) = true ->
  let r k := Rmult (Rmult k k) (o_gnss_scale o) in let dt := Rdiv 1 (o_rate o) in
  Rlt 0 (r (vx (g_std g))) -> Rlt 0 (r (vy (g_std g))) -> Rlt 0 (r (vz (g_std g))) ->
  exists u, gnss_update t g = Some u /\
    kP (f_kf u) (st 3) (st 3) = Rminus (Rmult dt (Rmult (o_vrw o) (o_vrw o)))
      (Rdiv (Rmult (Rmult (Rmult dt dt) (Rmult dt dt)) (Rmult (Rmult (o_vrw o) (o_vrw o)) (Rmult (o_vrw o) (o_vrw o)))) (Rmult 4 (r (vx (g_std g))))).
Proof. move=> s0 nav o s x t g. rewrite -mode_rule. exact: fix_negative. Qed.
(** what holds: an epoch without constraint updates lowers a variance by at most the noise that the drift part of the
    transition carries over *)
Theorem C22_bounded_loss_partial : forall s0 nav o s cs u x t, (0 <= f_flag s0)%Z -> unconstrained o ->
  Rlt 0 (o_rate o) -> Rlt 0 (o_gt_corr o) -> Rlt 0 (o_at_corr o) ->
  initialize s0 nav o = Some s -> run_calls s cs = Some u -> time_update u x = Some t ->
  exists2 phi, transfer (f_ins t) o = Some phi & forall y,
  Rle (Rminus (variance (kP (f_kf u)) (phi^T *m y))
              (Rmult (Rdiv (Rdiv 1 (o_rate o)) 4) (variance (diagonal (Q0_diag o)) ((phi - 1%:M)^T *m y))))
      (variance (kP (f_kf t)) y).
Proof. exact variance_loss. Qed.
Print Assumptions C22_positive_semidefinite_refuted.
Print Assumptions C22_negative_variance_refuted.
Print Assumptions C22_bounded_loss_partial.
Example C22_case : forall t, unconstrained (case_opt 1 false) /\ exists s u,
  initialize (fusion_new case_ins (case_opt 1 false)) (case_nav vzero) (case_opt 1 false) = Some s /\
  time_update s (case_sample 0 t) = Some u.
Proof.
move=> t. split; first by split => //; left. have [u e _] := case_first 1 vzero t.
exists (case_start 1 false vzero), u. split; [exact: case_init|exact: e].
Qed.

(** ** C23: after a measurement [c] (a fix or a velocity) and the samples [xs], the biases have moved by the share of
    the estimate that [fed] says, and by all of it once there have been as many samples as parts *)
Theorem C23_biases : forall s c u xs t, unconstrained (f_opt u) ->
  match c with CallGnss g => fix_mode (g_mode g) = true | CallVel _ => True | _ => False end -> (0 <= f_flag s)%Z ->
  do_call s c = Some u -> xs <> nil -> run_calls u (List.map CallImu xs) = Some t ->
  let n := max_iter (f_min u) in let x := kX (f_kf u) in let j := Z.of_nat (length xs) in
  (n_gb (s_nav (f_ins t)) = vadd (n_gb (s_nav (f_ins u))) (fed (part x 3) j n) /\
   n_ab (s_nav (f_ins t)) = vadd (n_ab (s_nav (f_ins u))) (fed (part x 4) j n)) /\
  ((n <= j)%Z ->
   n_gb (s_nav (f_ins t)) = vadd (n_gb (s_nav (f_ins u))) (part x 3) /\
   n_ab (s_nav (f_ins t)) = vadd (n_ab (s_nav (f_ins u))) (part x 4)).
Proof. move=> s c u xs t H1 H2. apply: fed_after_call => //. by case: c H2 => // g; rewrite mode_rule. Qed.
(** every part of the estimate: one sample hands over the whole estimate divided by the number of parts *)
Theorem C23_parts : forall s, (0 < f_flag s)%Z ->
  feed (take_estimate s) =
    bind (feedback (f_ins s) (err_of (Rinv (IZR (max_iter (f_min s))) *: kX (f_kf s)))) (fun i =>
      Some (set_flag (set_kf (set_pending (set_ins s i) (kX (f_kf s)) (Z.sub (max_iter (f_min s)) 1)) (kf_reset (f_kf s))) 0)).
Proof. exact first_part. Qed.
(** the number of parts: a thousand while every fix and velocity so far came after more than a thousand samples without one, from the first
    that did not on always one *)
Theorem C23_number_of_parts : forall i0 o0 nav o s cs t, initialize (fusion_new i0 o0) nav o = Some s -> run_calls s cs = Some t ->
  (epochs cs < 4294967296)%Z -> max_iter (f_min t) = if forallb (Z.ltb 1000) (stretches 0 cs) then 1000%Z else 1%Z.
Proof. exact parts_history. Qed.
Print Assumptions C23_number_of_parts.
Print Assumptions C23_biases.
Print Assumptions C23_parts.
(** a fix 100 m above, one sample: half the way *)
Example C23_case : forall t, exists s u v, initialize (fusion_new case_ins (case_opt 1 false)) (case_nav (V 1 1 1)) (case_opt 1 false) = Some s /\
  do_call s (CallGnss (case_fix 100)) = Some u /\ max_iter (f_min u) = 1%Z /\
  run_calls u (List.map CallImu [:: case_sample 50 t]) = Some v /\ n_pos (s_nav (f_ins v)) = V 0 0 50.
Proof. exact case_above_calls. Qed.

(** ** C24: refuted. Of two fixes before the next sample the position of the first has no influence at all *)
Theorem C24_all_measurements_count_refuted : forall s g1 g1' g2,
  fix_mode (g_mode g1) = true -> fix_mode (g_mode g1') = true -> fix_mode (g_mode g2) = true -> g_std g1 = g_std g1' ->
  bind (gnss_update s g1) (fun u => gnss_update u g2) = bind (gnss_update s g1') (fun u => gnss_update u g2).
Proof. move=> s g1 g1' g2. rewrite -!mode_rule. exact: gnss_twice. Qed.
(** nor has the velocity any influence on a zero velocity update when the zero angular rate update is on *)
Theorem C24_zero_velocity_ignored_refuted : forall s v v', o_zupta (f_opt s) = true ->
  Datatypes.option_map f_kf (zero_velocity (with_velocity s v)) = Datatypes.option_map f_kf (zero_velocity (with_velocity s v')).
Proof. exact zupta_ignores_velocity. Qed.
Print Assumptions C24_all_measurements_count_refuted.
Print Assumptions C24_zero_velocity_ignored_refuted.
(** a fix 100 m above, then one at the place of the unit: the estimate of the first is erased *)
Example C24_case : exists u v, gnss_update (case_start 1 false (V 1 1 1)) (case_fix 100) = Some u /\
  kX (f_kf u) <> 0 /\ gnss_update u (case_fix 0) = Some v /\ kX (f_kf v) = 0.
Proof. exact case_erased. Qed.

(** ** C25: a rejected fix anywhere in a history leaves everything but sensor word and mode as if it had not been there *)
Theorem C25_rejected : forall s g cs1 cs2, fix_mode (g_mode g) = false ->
  Datatypes.option_map forget (run_calls s (cs1 ++ CallGnss g :: cs2)%list) = Datatypes.option_map forget (run_calls s (cs1 ++ cs2)%list).
Proof. move=> s g cs1 cs2. rewrite -mode_rule. exact: rejected_forgotten. Qed.
Theorem C25_flags : forall s g, fix_mode (g_mode g) = false -> exists2 t, gnss_update s g = Some t &
  [/\ forget t = forget s, sensor t 1 = false, n_gnss_mode (s_nav (f_ins t)) = MODE_INVALID &
      forall b, b <> 1%N -> sensor t b = sensor s b].
Proof. move=> s g. rewrite -mode_rule. exact: rejected_flags. Qed.
Print Assumptions C25_rejected.
Print Assumptions C25_flags.
(** modes 0, 3 and 6 are rejected *)
Example C25_case : fix_mode 0 = false /\ fix_mode 3 = false /\ fix_mode 6 = false /\ fix_mode (g_mode (case_fix 100)) = true.
Proof. by []. Qed.

(** ** C26: [k] is the number of the epoch. Bit 4: non-holonomic, bit 3: zero velocity *)
Theorem C26_schedule : forall s0 nav o s cs x t, (0 <= f_flag s0)%Z -> initialize s0 nav o = Some s ->
  run_calls s (cs ++ [:: CallImu x])%list = Some t ->
  let k := (epochs cs + 1)%Z in
  exists sm, smooth_run (f_smooth s0) (samples cs ++ [:: x])%list = Some sm /\
  (sensor t 4 = [&& Z.eqb (k mod 32) 1, o_nhc o & ~~ o_odo o]) /\
  (o_zupt o = true -> (k mod 8 <> 0)%Z -> sensor t 3 = is_static sm) /\
  ([&& ~~ Z.eqb (k mod 8) 0, o_zupt o & is_static sm] = false -> [&& Z.eqb (k mod 32) 1, o_nhc o & ~~ o_odo o] = false ->
   f_flag t = 0%Z /\ exists u phi, [/\ run_calls s cs = Some u, transfer (f_ins t) o = Some phi &
     kP (f_kf t) = phi *m kP (f_kf u) *m phi^T + process_noise phi (f_Q0 u) (s_dt (f_ins t))]).
Proof. exact schedule. Qed.
Print Assumptions C26_schedule.
(** constraints on, 33 samples at rest *)
Example C26_case : forall std, exists t, run_calls (case_start 0 true std)
  (List.map (fun t => CallImu (case_sample 0 t)) (List.repeat 0 32) ++ [:: CallImu (case_sample 0 0)])%list = Some t /\ sensor t 4 = true.
Proof. exact case_schedule. Qed.

(** ** C48: the barometric heights since the last accepted fix are [hs]; the next one is used if there were four before,
    as a measurement of the height of the fix plus the change since the first *)
Theorem C48_after_fix_partial : forall i0 o0 nav o s cs u gh hs v t, initialize (fusion_new i0 o0) nav o = Some s ->
  run_calls s cs = Some u -> since_fix cs (None, nil) = (Some gh, hs) -> height_update u v = Some t ->
  if Nat.leb 4 (length hs) then height_fused u t (Rplus gh (Rminus v (List.hd (IZR 0) hs))) else height_ignored u t.
Proof. exact height_after_fix. Qed.
(** without a fix: the sixth height is used as if a fix at -2147483648 m had been the reference *)
Theorem C48_needs_reference_refuted : forall i0 o0 nav o s cs u hs v t, initialize (fusion_new i0 o0) nav o = Some s ->
  run_calls s cs = Some u -> since_fix cs (None, nil) = (None, hs) -> height_update u v = Some t ->
  if Nat.leb 5 (length hs) then height_fused u t (Rplus (IZR (-2147483648)) (Rminus v (List.nth 1 hs (IZR 0)))) else height_ignored u t.
Proof. exact height_without_fix. Qed.
Print Assumptions C48_after_fix_partial.
Print Assumptions C48_needs_reference_refuted.
Example C48_case : exists u t, run_calls (case_start 1 false (V 1 1 1)) (List.repeat (CallHeight 0) 5) = Some u /\
  height_update u 0 = Some t /\ sensor t 7 = true /\ height_z u (Rplus (IZR (-2147483648)) (Rminus 0 0)) = IZR (-2147483648).
Proof. exact case_heights. Qed.

(** ** C62: antenna at the unit; [weights]: p / (p + r) on each axis *)
Theorem C62_first_fix : forall s0 nav o s g, initialize s0 nav o = Some s -> o_lb_gnss o = vzero -> fix_mode (g_mode g) = true ->
  Rlt 0 (fix_var o (vx (g_std g))) -> Rlt 0 (fix_var o (vy (g_std g))) -> Rlt 0 (fix_var o (vz (g_std g))) ->
  exists t, gnss_update s g = Some t /\
    kX (f_kf t) = column (fun b => if b == 0%N then vmul (weights nav o g) (pos_z (f_ins s) vzero (fix_place g)) else vzero).
Proof. move=> s0 nav o s g. rewrite -mode_rule. exact: first_fix_weights. Qed.
Theorem C62_fix_above : forall i0 o0 nav o s g q time, initialize (fusion_new i0 o0) nav o = Some s ->
  o_lb_gnss o = vzero -> unconstrained o -> Rlt 0 (o_rate o) -> fix_mode (g_mode g) = true ->
  let lat := Rmult (g_lat g) deg in let lon := Rmult (g_lon g) deg in let h := vz (n_pos nav) in
  nav_rest nav lat lon h q -> n_Cne nav = lla_to_cne lat lon -> qnorm2 q = 1 ->
  let p := sq (vz (n_pos_std nav)) in let r := fix_var o (vz (g_std g)) in
  Rlt 0 (fix_var o (vx (g_std g))) -> Rlt 0 (fix_var o (vy (g_std g))) -> Rlt 0 r ->
  let h' := Rplus h (Rmult (weight p r) (Rminus (g_height g) h)) in
  place_ok lat lon h -> place_ok lat lon h' ->
  let dt := Rdiv 1 (o_rate o) in
  let x := Imu time (rest_gyro (quaternion_to_dcm q) lat dt) (mvec (mtrans (quaternion_to_dcm q)) (balanced lat h' dt)) in
  exists t, run_calls s [:: CallGnss g; CallImu x] = Some t /\
    n_pos (s_nav (f_ins t)) = V lat lon h' /\ n_vn (s_nav (f_ins t)) = vzero /\
    n_Cbn (s_nav (f_ins t)) = n_Cbn nav /\ n_gb (s_nav (f_ins t)) = n_gb nav /\ n_ab (s_nav (f_ins t)) = n_ab nav.
Proof. move=> i0 o0 nav o s g q time. rewrite -mode_rule. exact: fix_above. Qed.
Print Assumptions C62_first_fix.
Print Assumptions C62_fix_above.
Example C62_case : forall t, exists u, run_calls (case_start 1 false (V 1 1 1)) [:: CallGnss (case_fix 100); CallImu (case_sample 50 t)] = Some u /\
  n_pos (s_nav (f_ins u)) = V 0 0 50 /\ n_vn (s_nav (f_ins u)) = vzero.
Proof. exact case_above. Qed.

(** ** C63: place of the antenna minus place of the fix, in earth axes *)
Theorem C63_innovation : forall s0 nav o s cs t lb pos, initialize s0 nav o = Some s ->
  n_Cne nav = lla_to_cne (vx (n_pos nav)) (vy (n_pos nav)) -> run_calls s cs = Some t ->
  let n := s_nav (f_ins t) in let lat := vx (n_pos n) in let lon := vy (n_pos n) in
  local_vector lat lon (pos_z (f_ins t) lb pos) =
  vsub (vadd (lla_to_xyz (n_pos n)) (local_vector lat lon (mvec (n_Cbn n) lb))) (lla_to_xyz pos).
Proof. exact innovation_history. Qed.
Print Assumptions C63_innovation.

(** ** C64: refuted. Once a new estimate waits, whatever was left of the previous one makes no difference *)
Theorem C64_remainder_kept_refuted : forall s x y n, (0 < f_flag s)%Z -> time_update (set_pending s y n) x = time_update s x.
Proof. exact remainder_lost. Qed.
(** and with constraint updates before the first fix a new one waits at every epoch but every eighth, while estimates are
    spread over a thousand *)
Theorem C64_spread_over_thousand : forall i0 o0 nav o s cs t, initialize (fusion_new i0 o0) nav o = Some s ->
  Forall (fun c => match c with CallGnss _ | CallVel _ => False | _ => True end) cs -> run_calls s cs = Some t ->
  max_iter (f_min t) = 1000%Z.
Proof. exact thousand_before_fix. Qed.
Print Assumptions C64_remainder_kept_refuted.
Print Assumptions C64_spread_over_thousand.

(** ** C65 *)
Theorem C65_level_corrections : forall s x lat lon h,
  level_correction x -> place_ok lat lon h -> n_pos (s_nav s) = V lat lon h -> n_Qne (s_nav s) = lla_to_qne lat lon ->
  qnorm2 (n_Qbn (s_nav s)) = 1 -> n_Cbn (s_nav s) = quaternion_to_dcm (n_Qbn (s_nav s)) ->
  exists t, feedback s x = Some t /\
    n_pos (s_nav t) = V lat lon (Rplus h (vz (x_pos x))) /\ n_vn (s_nav t) = vsub (n_vn (s_nav s)) (x_vel x) /\
    n_Qbn (s_nav t) = n_Qbn (s_nav s) /\ n_Cbn (s_nav t) = n_Cbn (s_nav s) /\
    n_gb (s_nav t) = vadd (n_gb (s_nav s)) (x_gb x) /\ n_ab (s_nav t) = vadd (n_ab (s_nav s)) (x_ab x) /\
    n_dvn (s_nav t) = n_dvn (s_nav s) /\ n_Qne (s_nav t) = n_Qne (s_nav s) /\ n_Cne (s_nav t) = n_Cne (s_nav s) /\
    n_gs (s_nav t) = n_gs (s_nav s) /\ n_as (s_nav t) = n_as (s_nav s) /\
    s_dt t = s_dt s /\ s_acce_pre t = s_acce_pre s /\ s_gyro_pre t = s_gyro_pre s.
Proof. exact feedback_level. Qed.
Print Assumptions C65_level_corrections.
Example C65_case : level_correction (Err (V 0 0 5) (V 1 2 3) vzero (V 1 1 1) (V 2 2 2)) /\ place_ok 0 0 0 /\
  n_pos (case_nav vzero) = V 0 0 0 /\ n_Qne (case_nav vzero) = lla_to_qne 0 0 /\ qnorm2 (n_Qbn (case_nav vzero)) = 1 /\
  n_Cbn (case_nav vzero) = quaternion_to_dcm (n_Qbn (case_nav vzero)).
Proof. exact case_level. Qed.

(** ** C66 *)
Theorem C66_constraints_at_rest : forall i0 o0 nav o s lat lon h q ts u, initialize (fusion_new i0 o0) nav o = Some s ->
  place_ok lat lon h -> nav_rest nav lat lon h q -> qnorm2 q = 1 -> Rlt 0 (o_rate o) ->
  o_lb_wheel o = vzero -> o_zupta o = false ->
  let dt := Rdiv 1 (o_rate o) in
  let a := mvec (mtrans (quaternion_to_dcm q)) (balanced lat h dt) in
  let g := rest_gyro (quaternion_to_dcm q) lat dt in
  run_calls s (List.map (fun t => CallImu (Imu t g a)) ts) = Some u ->
  n_pos (s_nav (f_ins u)) = V lat lon h /\ n_vn (s_nav (f_ins u)) = vzero /\ n_Cbn (s_nav (f_ins u)) = quaternion_to_dcm q /\
  n_gb (s_nav (f_ins u)) = vzero /\ n_ab (s_nav (f_ins u)) = vzero.
Proof. exact constraints_at_rest. Qed.
Print Assumptions C66_constraints_at_rest.

(** ** C67: refuted. The zero angular rate update takes the whole rate about the vertical axis for a gyro bias, at rest the
    rotation of the earth *)
Theorem C67_earth_rate_is_no_bias_refuted : forall s t, o_zupta (f_opt s) = true -> zero_velocity s = Some t ->
  exists p, kX (f_kf t) (st 11) ord0 =
    Rmult (weight p (Rmult (o_zupta_std (f_opt s)) (o_zupta_std (f_opt s)))) (Rdiv (vz (s_gyro_pre (f_ins s))) (s_dt (f_ins s))) /\
    exists k, kf_update (m := 3) (f_kf s) (blocks (fun _ c => zupt_h c)) (column (fun _ => n_vn (s_nav (f_ins s))))
      (let std := Rmult (o_zupt_std (f_opt s)) (o_zupt_std (f_opt s)) in diagonal (fun _ => V std std std)) = Some k /\
      p = kP k (st 11) (st 11).
Proof. exact zupta_bias. Qed.
Theorem C67_rate_at_rest : forall C lat dt, dt <> IZR 0 ->
  Rdiv (vz (rest_gyro C lat dt)) dt = vz (mvec (mtrans C) (omega_ie_n lat)).
Proof. exact rest_gyro_rate. Qed.
Print Assumptions C67_earth_rate_is_no_bias_refuted.
Print Assumptions C67_rate_at_rest.
