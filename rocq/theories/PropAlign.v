(** The alignment, seen through the C interface: C70 to C73. Exact real arithmetic.
    [steps hs] hands over the samples hs one by one, [fix_calls fs] the fixes fs. *)
From Coq Require Import Reals ZArith List Lia Lra.
From Verif Require Import RealMath EarthModel ConvertModel ConvertSpec SmoothModel SmoothSpec InsModel FusionBase
  KalmanModel FusionModel FusionCases AlignModel ApiModel ApiSpec ApiProofs ApiCases AlignExtra AlignHeading AlignCase AlignBias.
Import ListNotations.
Local Open Scope R_scope.

(** ** C70: roll r, pitch p. Proved: the pitch of an upright unit. Refuted: the roll is right only if roll or pitch is zero,
    and an inverted unit gets the opposite pitch. The attitude of gyroscope samples is irrelevant. *)
Theorem C70_levelling_partial : forall d j ao n d0 r p h g hs d1 l b, api_init d j (Some ao) n = Some (d0, RGIOE_OK) -> let o := ao_rest ao in
  o_align_mode o <> ALIGN_USE_GIVEN -> 0 < o_rate o -> o_ab_ini o = vzero -> o_as_ini o = vzero -> 0 < g ->
  Forall (fun x => i_acce x = vscale (1 / o_rate o) (rest_force r p h g)) hs -> (200 < length hs)%nat ->
  api_run d0 (steps hs) = Some (d1, l) ->
  d_status d1 = RGIOE_STATUS_ATTITUDE /\
  (- (PI / 2) < r < PI / 2 -> - (PI / 2) <= p <= PI / 2 -> exists q v, api_do d1 (AResult b) = Some (d1, RPva (Some q)) /\
    p_atti q = Some v /\ vy v * (PI / 180) = p /\ vx v * (PI / 180) = asin (sin r * cos p) /\
    (vx v * (PI / 180) = r <-> r = 0 \/ p = 0)) /\
  (PI / 2 < r < PI -> - (PI / 2) < p < PI / 2 -> exists q v, api_do d1 (AResult b) = Some (d1, RPva (Some q)) /\
    p_atti q = Some v /\ vy v * (PI / 180) = - p).
Proof. exact level_api. Qed.
Print Assumptions C70_levelling_partial.
(** a unit with roll and pitch of 45 degrees *)
Example C70_case : forall d j v, exists d0 d1 l, api_init d j (Some (AOpt true (case_opt v false))) None = Some (d0, RGIOE_OK) /\
  api_run d0 (steps (tilted (PI / 4) (PI / 4) 201)) = Some (d1, l) /\
  Forall (fun x => i_acce x = vscale (1 / o_rate (case_opt v false)) (rest_force (PI / 4) (PI / 4) 0 10)) (tilted (PI / 4) (PI / 4) 201).
Proof. exact tilted_case. Qed.
(** the same for accelerometers with the configured bias and scale errors: [measures o a f] says that (1 - scale) * (a - bias)
    is the true specific force f, axis by axis *)
Theorem C70_configured_errors_partial : forall d j ao n d0 r p h g a hs d1 l b, api_init d j (Some ao) n = Some (d0, RGIOE_OK) ->
  let o := ao_rest ao in o_align_mode o <> ALIGN_USE_GIVEN -> 0 < o_rate o -> measures o a (rest_force r p h g) -> 0 < g ->
  Forall (fun x => i_acce x = vscale (1 / o_rate o) a) hs -> (200 < length hs)%nat ->
  api_run d0 (steps hs) = Some (d1, l) ->
  d_status d1 = RGIOE_STATUS_ATTITUDE /\
  (- (PI / 2) < r < PI / 2 -> - (PI / 2) <= p <= PI / 2 -> exists q v, api_do d1 (AResult b) = Some (d1, RPva (Some q)) /\
    p_atti q = Some v /\ vy v * (PI / 180) = p /\ vx v * (PI / 180) = asin (sin r * cos p)) /\
  (PI / 2 < r < PI -> - (PI / 2) < p < PI / 2 -> exists q v, api_do d1 (AResult b) = Some (d1, RPva (Some q)) /\
    p_atti q = Some v /\ vy v * (PI / 180) = - p).
Proof. exact level_measured. Qed.
Print Assumptions C70_configured_errors_partial.
Example C70_errors_case : forall d j v, exists d0 d1 l, api_init d j (Some (AOpt true (error_opt v))) None = Some (d0, RGIOE_OK) /\
  measures (error_opt v) error_force (rest_force (PI / 4) (PI / 4) 0 10) /\
  api_run d0 (steps (repeat (Imu 0 vzero (vscale (1 / 100) error_force)) 201)) = Some (d1, l).
Proof. exact error_case. Qed.

(** ** C71: refuted. Fixes at one place turn the heading of a parked unit by the installation angle, each of them *)
Theorem C71_installation_angle_refuted : forall d j ao n d0 h gr hs p fs d1 l b, api_init d j (Some ao) n = Some (d0, RGIOE_OK) ->
  let o := ao_rest ao in o_align_mode o <> ALIGN_USE_GIVEN -> level_samples o h gr hs -> 0 <= o_align_vel o ->
  usable p -> parked p fs -> api_run d0 (steps hs ++ fix_calls (p :: fs)) = Some (d1, l) ->
  d_status d1 = RGIOE_STATUS_ATTITUDE /\ exists q v, api_do d1 (AResult b) = Some (d1, RPva (Some q)) /\ p_atti q = Some v /\
  let u := INR (length fs) * vz (o_angle_bv o) in
  cos (vz v * (PI / 180)) = cos u /\ sin (vz v * (PI / 180)) = sin u.
Proof. exact installation_turns. Qed.
Print Assumptions C71_installation_angle_refuted.
Example C71_case : forall d j v k, exists d0 d1 l, api_init d j (Some (AOpt true (case_opt v false))) None = Some (d0, RGIOE_OK) /\
  level_samples (case_opt v false) 0 10 (tilted 0 0 201) /\ usable (lift 0) /\ parked (lift 0) (repeat (lift 0) k) /\
  api_run d0 (steps (tilted 0 0 201) ++ fix_calls (lift 0 :: repeat (lift 0) k)) = Some (d1, l).
Proof. exact parked_case. Qed.

(** ** C72: refuted. The attitude accuracy after alignment is 0.3 divided by the accuracy of the fix: the better the fix the worse *)
Theorem C72_accuracy_refuted : forall d j ao n d0 h gr hs p g d1 l b, api_init d j (Some ao) n = Some (d0, RGIOE_OK) ->
  let o := ao_rest ao in o_align_mode o <> ALIGN_USE_GIVEN -> level_samples o h gr hs ->
  usable p -> usable g -> o_align_vel o < travelled p g < 1000 -> g_gpst g <> g_gpst p ->
  api_run d0 (steps hs ++ fix_calls [p; g]) = Some (d1, l) ->
  exists q, api_do d1 (AResult b) = Some (d1, RPva (Some q)) /\
    p_atti_std q = Some (V (3 / 10 / vx (g_std g)) (3 / 10 / vy (g_std g)) (3 / 10 / vz (g_std g))).
Proof. exact moved_accuracy. Qed.
Print Assumptions C72_accuracy_refuted.

(** ** C73: refuted. The velocity is three halves of the displacement, in metres whatever time it took and with the vertical
    part upwards, minus half of what uninitialised memory holds *)
Theorem C73_velocity_refuted : forall d j ao n d0 h gr hs p g x d2 l, api_init d j (Some ao) n = Some (d0, RGIOE_OK) ->
  let o := ao_rest ao in o_align_mode o <> ALIGN_USE_GIVEN -> level_samples o h gr hs ->
  o_gt_corr o <> 0 -> o_at_corr o <> 0 -> o_project o = false ->
  usable p -> usable g -> o_align_vel o < travelled p g < 1000 -> g_gpst g <> g_gpst p ->
  api_run d0 (steps hs ++ fix_calls [p; g] ++ [ATime (Some x)]) = Some (d2, l) ->
  d_status d2 = RGIOE_STATUS_NAVIGATION /\
  exists s, api_do d2 AVel = Some (d2, RTriple (Some (vsub (vscale (3 / 2) (displacement p g)) (vscale (1 / 2) (j_vpre j)))) s).
Proof. exact moved_velocity. Qed.
(** so that every velocity may come out *)
Theorem C73_any_velocity_refuted : forall p g w, exists v, vsub (vscale (3 / 2) (displacement p g)) (vscale (1 / 2) v) = w.
Proof. exact velocity_free. Qed.
Print Assumptions C73_velocity_refuted.
Print Assumptions C73_any_velocity_refuted.
Example C73_case : forall d j v x, exists d0 d2 l, api_init d j (Some (AOpt true (case_opt v false))) None = Some (d0, RGIOE_OK) /\
  level_samples (case_opt v false) 0 10 (tilted 0 0 201) /\ usable (lift 0) /\ usable (lift 2) /\ 1 < travelled (lift 0) (lift 2) < 1000 /\
  g_gpst (lift 2) <> g_gpst (lift 0) /\
  api_run d0 (steps (tilted 0 0 201) ++ fix_calls [lift 0; lift 2] ++ [ATime (Some x)]) = Some (d2, l).
Proof. exact moved_case. Qed.
