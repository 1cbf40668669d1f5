(** The start of navigation after an alignment in motion, through the C interface: C105, C106. *)
From Coq Require Import Reals ZArith List Lia Lra.
From mathcomp Require ssreflect ssralg matrix.
From Verif Require Import RealMath EarthModel ConvertModel ConvertSpec SmoothModel SmoothSpec InsModel FusionBase
  KalmanModel KalmanSpec FusionModel FusionCases AlignModel ApiModel ApiSpec ApiProofs ApiCases AlignExtra AlignHeading AlignCase AlignStart
.
Import ListNotations.
Local Open Scope R_scope.

(** ** C105: refuted. A unit at rest whose gyroscopes show the rate w all the time: the bias reported when navigation starts is the
    configured one, whatever w is *)
Theorem C105_static_bias_refuted : forall d j ao n d0 h gr hs w p g x d2 l b, api_init d j (Some ao) n = Some (d0, RGIOE_OK) ->
  let o := ao_rest ao in o_align_mode o <> ALIGN_USE_GIVEN -> level_samples o h gr hs ->
  Forall (fun y => i_gyro y = vscale (1 / o_rate o) w) hs ->
  o_gt_corr o <> 0 -> o_at_corr o <> 0 -> o_project o = false ->
  usable p -> usable g -> o_align_vel o < travelled p g < 1000 -> g_gpst g <> g_gpst p ->
  api_run d0 (steps hs ++ fix_calls [p; g] ++ [ATime (Some x)]) = Some (d2, l) ->
  exists q, api_do d2 (AResult b) = Some (d2, RPva (Some q)) /\
    p_gb q = vscale 3600 (vdiv (o_gb_ini o) (PI / 180)) /\ (w <> o_gb_ini o -> p_gb q <> vscale 3600 (vdiv w (PI / 180))).
Proof.
  intros d j ao n d0 h gr hs w p g x d2 l b I o Mo Ls _ Hg Ha Hp Up Ug Mv Ti H.
  destruct (moved_start _ _ _ _ _ _ _ _ _ _ _ _ _ b I Mo Ls Hg Ha Hp Up Ug Mv Ti H) as (q & E & _ & _ & _ & _ & G & _).
  exists q. split; [exact E|]. fold o in G. split; [exact G|]. intros Ne E2. apply Ne. rewrite G in E2. exact (bias_scale _ _ E2).
Qed.
Print Assumptions C105_static_bias_refuted.
(** gyroscopes that show w at rest, configured bias zero *)
Example C105_case : forall d j v w x, exists d0 d2 l, api_init d j (Some (AOpt true (case_opt v false))) None = Some (d0, RGIOE_OK) /\
  o_gb_ini (case_opt v false) = vzero /\
  level_samples (case_opt v false) 0 10 (spinning w 201) /\ Forall (fun y => i_gyro y = vscale (1 / o_rate (case_opt v false)) w) (spinning w 201) /\
  usable (lift 0) /\ usable (lift 2) /\ 1 < travelled (lift 0) (lift 2) < 1000 /\ g_gpst (lift 2) <> g_gpst (lift 0) /\
  api_run d0 (steps (spinning w 201) ++ fix_calls [lift 0; lift 2] ++ [ATime (Some x)]) = Some (d2, l).
Proof. exact spinning_case. Qed.

(** ** C106: the place is the one of the last fix, less the lever arm from the unit to the antenna (north, east, down), and the
    heading is the direction of the reported velocity plus the installation angle. Proved except that the lever arm is turned by the
    direction of the velocity alone *)
Theorem C106_start_partial : forall d j ao n d0 h gr hs p g x d2 l b, api_init d j (Some ao) n = Some (d0, RGIOE_OK) ->
  let o := ao_rest ao in o_align_mode o <> ALIGN_USE_GIVEN -> level_samples o h gr hs ->
  o_gt_corr o <> 0 -> o_at_corr o <> 0 -> o_project o = false ->
  usable p -> usable g -> o_align_vel o < travelled p g < 1000 -> g_gpst g <> g_gpst p ->
  api_run d0 (steps hs ++ fix_calls [p; g] ++ [ATime (Some x)]) = Some (d2, l) ->
  exists q, api_do d2 (AResult b) = Some (d2, RPva (Some q)) /\
    p_gpst q = i_gpst x /\ p_gnss_mode q = Z.to_nat (g_mode g mod 65536) /\ p_kd q = o_odo_scale o /\
    (let u := atan2 (vy (p_vn q)) (vx (p_vn q)) in let lat := g_lat g * (PI / 180) in
     let lever := mvec (euler_to_dcm (V 0 0 u)) (o_lb_gnss o) in
     p_lat q * (PI / 180) = lat - vx lever / (RM lat + g_height g) /\
     p_lon q * (PI / 180) = g_lon g * (PI / 180) - vy lever / ((RN lat + g_height g) * cos lat) /\
     p_height q = g_height g + vz lever /\
     exists v, p_atti q = Some (V 0 0 (v / (PI / 180))) /\ cos v = cos (u + vz (o_angle_bv o)) /\ sin v = sin (u + vz (o_angle_bv o))) /\
    p_ab q = vscale 100000 (o_ab_ini o) /\ p_gs q = vscale 1000000 (o_gs_ini o) /\ p_as q = vscale 1000000 (o_as_ini o).
Proof.
  intros d j ao n d0 h gr hs p g x d2 l b I o Mo Ls Hg Ha Hp Up Ug Mv Ti H.
  destruct (moved_start _ _ _ _ _ _ _ _ _ _ _ _ _ b I Mo Ls Hg Ha Hp Up Ug Mv Ti H) as (q & E & R1 & R2 & R3 & R4 & _ & R5 & R6 & R7).
  assert (U1 : forall v, vdiv v mGal = vscale 100000 v) by (intros [a b' c]; unfold vdiv, vscale, mGal; cbn; f_equal; field).
  assert (U2 : forall v, vdiv v ppm = vscale 1000000 v) by (intros [a b' c]; unfold vdiv, vscale, ppm; cbn; f_equal; field).
  rewrite U1 in R5. rewrite U2 in R6, R7.
  exists q. repeat (split; [assumption|]). assumption.
Qed.
Print Assumptions C106_start_partial.
(** REFUTED: with the antenna x metres ahead of the unit and an installation angle a that is no multiple of a half turn, the lever arm
    turned by the reported heading u + a is another one *)
Theorem C106_lever_refuted : forall u a x, sin a <> 0 -> x <> 0 ->
  mvec (euler_to_dcm (V 0 0 u)) (V x 0 0) <> mvec (euler_to_dcm (V 0 0 (u + a))) (V x 0 0).
Proof. exact lever_turned. Qed.
Print Assumptions C106_lever_refuted.
Example C106_case : forall d j v x, exists d0 d2 l, api_init d j (Some (AOpt true (case_opt v false))) None = Some (d0, RGIOE_OK) /\
  level_samples (case_opt v false) 0 10 (tilted 0 0 201) /\ usable (lift 0) /\ usable (lift 2) /\ 1 < travelled (lift 0) (lift 2) < 1000 /\
  g_gpst (lift 2) <> g_gpst (lift 0) /\
  api_run d0 (steps (tilted 0 0 201) ++ fix_calls [lift 0; lift 2] ++ [ATime (Some x)]) = Some (d2, l).
Proof. exact moved_case. Qed.
