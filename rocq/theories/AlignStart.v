(** The state with which navigation starts after an alignment in motion, for a unit that was levelled. *)
From Coq Require Import Reals ZArith List Bool Lia Lra.
From Verif Require Import RealMath EarthModel ConvertModel ConvertSpec ConvertProofs SmoothModel SmoothSpec
  InsModel FusionBase KalmanModel FusionModel AlignModel ApiModel ApiSpec AlignProofs ApiProofs ApiCases AlignExtra AlignHeading FusionCases AlignCase SmoothProofs SmoothProofs2 InsRest InsRest2.
Import ListNotations.
Local Open Scope R_scope.

Lemma finish_rest o n pre g m : align_finish o n pre g = Some m ->
  n_gb m = o_gb_ini o /\ n_ab m = o_ab_ini o /\ n_gs m = o_gs_ini o /\ n_as m = o_as_ini o /\
  n_gnss_mode m = Z.to_nat (g_mode g mod 65536) /\ n_sensors m = 3%nat /\ n_pos_std m = g_std g /\
  n_vel_std m = vadd (g_std g) (g_std pre).
Proof.
  unfold align_finish. destruct (negb _); [discriminate|]. destruct (_ || _ || _); [discriminate|].
  destruct (euler_vec _); [|discriminate]. intros [= <-]. repeat split.
Qed.

Lemma moved_all d j ao n d0 h gr hs p g d1 l : api_init d j (Some ao) n = Some (d0, RGIOE_OK) ->
  let o := ao_rest ao in o_align_mode o <> ALIGN_USE_GIVEN -> level_samples o h gr hs ->
  usable p -> usable g -> o_align_vel o < travelled p g < 1000 -> g_gpst g <> g_gpst p ->
  api_run d0 (steps hs ++ fix_calls [p; g]) = Some (d1, l) ->
  d_status d1 = RGIOE_STATUS_ATTITUDE /\ d_opt d1 = o /\ d_fusion d1 = Some (fusion_new (j_ins j) (j_opt j)) /\
  l_level (d_align d1) = true /\ l_yaw (d_align d1) = true /\
  exists m1 m, l_nav (d_align d1) = Some m /\ align_finish o m1 p g = Some m /\ n_Cbn m1 = turn (atan2 (vy (n_vn m)) (vx (n_vn m))) /\
    n_vn m = vsub (vscale (3 / 2) (displacement p g)) (vscale (1 / 2) (j_vpre j)).
Proof.
  intros I o Mo Ls Up Ug Mv Ti H. rewrite api_run_app in H. destruct (api_run d0 (steps hs)) as [[d2 l2]|] eqn:E; [|discriminate].
  destruct (level_state _ _ _ _ _ _ _ _ _ _ I Mo Ls E) as (St & Op & Fu & De & Ho & Hv & Hp & Lv & Hy & m & En & _ & _ & Ea & Ec).
  destruct (fix_run [p; g] d2 St) as [l3 F]. rewrite F in H. injection H as <- _. cbn [feed_fixes].
  assert (Ep : align_gnss (d_align d2) p = Al (l_nav (d_align d2)) (l_gpst (d_align d2)) (l_level (d_align d2)) (l_yaw (d_align d2))
                 (l_smooth (d_align d2)) p (l_opt (d_align d2)) (l_vpre (d_align d2))).
  { unfold align_gnss. rewrite Hp. simpl. rewrite (proj2 (is_zero_true 0)); reflexivity. }
  destruct (heading_defined m (j_vpre j) p g 0 Ti Ea) as (m1 & E1 & V1 & C1 & S1).
  destruct (finish_level o m1 p g _ Ug C1) as (m2 & E2 & V2 & C2 & A2 & _ & S2 & P2 & _).
  assert (Eg : align_gnss (align_gnss (d_align d2) p) g = Al (Some m2) (g_gpst g) true true (l_smooth (d_align d2)) g o (align_step p g)).
  { rewrite Ep. unfold align_gnss. cbn [l_pre l_opt l_nav l_gpst l_level l_yaw l_smooth l_vpre].
    destruct Up as (_ & X & _). rewrite (proj2 (is_zero_false _) X). rewrite Ho. fold o.
    rewrite (proj2 (moving_spec o p g) Mv). rewrite En, Hv. cbn [bind]. rewrite E1. cbn [bind]. rewrite E2, Lv, orb_true_r. reflexivity. }
  rewrite Eg. cbn [d_status d_opt d_fusion d_det d_align d_with_align l_level l_yaw l_nav].
  split; [exact St|]. split; [exact Op|]. split; [exact Fu|]. split; [reflexivity|]. split; [reflexivity|].
  exists m1, m2. split; [reflexivity|]. split; [exact E2|]. rewrite V2. split; [exact C1|exact V1].
Qed.

(** what the interface reports as soon as navigation has started *)
Lemma moved_start d j ao n d0 h gr hs p g x d2 l b : api_init d j (Some ao) n = Some (d0, RGIOE_OK) ->
  let o := ao_rest ao in o_align_mode o <> ALIGN_USE_GIVEN -> level_samples o h gr hs ->
  o_gt_corr o <> 0 -> o_at_corr o <> 0 -> o_project o = false ->
  usable p -> usable g -> o_align_vel o < travelled p g < 1000 -> g_gpst g <> g_gpst p ->
  api_run d0 (steps hs ++ fix_calls [p; g] ++ [ATime (Some x)]) = Some (d2, l) ->
  exists q, api_do d2 (AResult b) = Some (d2, RPva (Some q)) /\
    p_gpst q = i_gpst x /\ p_gnss_mode q = Z.to_nat (g_mode g mod 65536) /\ p_kd q = o_odo_scale o /\
    (let u := atan2 (vy (p_vn q)) (vx (p_vn q)) in let lat := g_lat g * deg in
     let lever := mvec (turn u) (o_lb_gnss o) in
     p_lat q * deg = lat - vx lever / (RM lat + g_height g) /\
     p_lon q * deg = g_lon g * deg - vy lever / ((RN lat + g_height g) * cos lat) /\
     p_height q = g_height g + vz lever /\
     exists v, p_atti q = Some (V 0 0 (v / deg)) /\ cos v = cos (u + vz (o_angle_bv o)) /\ sin v = sin (u + vz (o_angle_bv o))) /\
    p_gb q = vscale hour (vdiv (o_gb_ini o) deg) /\ p_ab q = vdiv (o_ab_ini o) mGal /\
    p_gs q = vdiv (o_gs_ini o) ppm /\ p_as q = vdiv (o_as_ini o) ppm.
Proof.
  intros I o Mo Ls Hg Ha Hp Up Ug Mv Ti H. rewrite app_assoc, api_run_app in H.
  destruct (api_run d0 (steps hs ++ fix_calls [p; g])) as [[d1 l1]|] eqn:E; [|discriminate].
  destruct (moved_all _ _ _ _ _ _ _ _ _ _ _ _ I Mo Ls Up Ug Mv Ti E) as (St & Op & Fu & Lv & Yw & m1 & m & En & Fi & C1 & _).
  destruct (finish_level o m1 p g _ Ug C1) as (m' & Fi' & _ & _ & At & _ & _ & Po & _).
  fold o in Fi. rewrite Fi in Fi'. injection Fi' as <-.
  destruct (finish_rest _ _ _ _ _ Fi) as (B1 & B2 & B3 & B4 & B5 & _).
  cbn [api_run api_do] in H. unfold api_time in H. rewrite St in H.
  destruct (align_imu (d_align d1) x) as [a|] eqn:Ea; [|discriminate].
  unfold align_imu in Ea. destruct (smooth_update (l_smooth (d_align d1)) x) as [sm|]; [|discriminate]. rewrite Lv, Yw, En in Ea.
  injection Ea as <-. cbn [l_level l_yaw andb l_nav] in H. injection H as <- _.
  cbn [api_do]. unfold api_result, df_output, df_init. cbn [d_status d_fusion d_with_status d_with_fusion d_with_align d_opt]. rewrite Fu, Op. cbn [bind].
  destruct Ls as (Hr & _). unfold initialize. fold o.
  rewrite (proj2 (is_zero_false (o_rate o)) (Rgt_not_eq _ _ Hr)).
  rewrite (proj2 (is_zero_false (o_gt_corr o)) Hg), (proj2 (is_zero_false (o_at_corr o)) Ha). cbn [orb bind].
  unfold output, out_place, out_atti. cbn [f_opt]. rewrite Hp.
  eexists. split; [reflexivity|].
  cbn [p_week p_gpst p_lat p_lon p_height p_vn p_atti p_gnss_mode p_gb p_ab p_gs p_as p_kd f_ins s_nav ins_nav init_pva nav_kd nav_time n_vn n_pos n_atti n_gpst n_gb n_ab n_gs n_as n_kd n_gnss_mode].
  assert (D := deg_nonzero).
  split; [reflexivity|]. split; [exact B5|]. split; [reflexivity|]. split; [|rewrite B1, B2, B3, B4; auto].
  rewrite Po, At. cbn [euler_vec eu_of vx vy vz].
  set (u := atan2 (vy (n_vn m)) (vx (n_vn m))) in *.
  unfold align_place. cbn [vx vy vz].
  split; [unfold Rdiv; rewrite Rmult_assoc, (Rinv_l _ D); ring|].
  split; [unfold Rdiv; rewrite Rmult_assoc, (Rinv_l _ D); ring|].
  split; [ring|].
  destruct (atan2_angle (u + vz (o_angle_bv o))) as [Ca Sa].
  exists (atan2 (sin (u + vz (o_angle_bv o))) (cos (u + vz (o_angle_bv o)))). split; [|split; assumption].
  unfold vdiv, vscale. cbn [vx vy vz]. do 2 f_equal; unfold Rdiv; ring.
Qed.

(** the lever arm belongs to the unit: turned by the reported heading it differs from what was subtracted *)
Lemma lever_turned u a x : sin a <> 0 -> x <> 0 ->
  mvec (turn u) (V x 0 0) <> mvec (turn (u + a)) (V x 0 0).
Proof.
  intros Ha Hx E. rewrite !turn_value in E. unfold mvec in E; cbn [vx vy vz m00 m01 m02 m10 m11 m12 m20 m21 m22] in E. injection E as E1 E2.
  assert (C : cos (u + a) = cos u) by (apply (Rmult_eq_reg_r x); [lra|exact Hx]).
  assert (S : sin (u + a) = sin u) by (apply (Rmult_eq_reg_r x); [lra|exact Hx]).
  apply Ha. replace a with ((u + a) - u) by ring. rewrite sin_minus, C, S. ring.
Qed.

Lemma bias_scale v w : vscale hour (vdiv v deg) = vscale hour (vdiv w deg) -> w = v.
Proof.
  assert (D := deg_nonzero). destruct v, w. unfold vscale, vdiv, hour; simpl. intros [= E1 E2 E3].
  assert (K : forall a b, 3600 * (a / deg) = 3600 * (b / deg) -> b = a).
  { intros a b E. apply (Rmult_eq_reg_r (/ deg)); [unfold Rdiv in E; lra|apply Rinv_neq_0_compat; exact D]. }
  rewrite (K _ _ E1), (K _ _ E2), (K _ _ E3). reflexivity.
Qed.
(** n samples of a level unit whose gyroscopes show the rate w *)
Definition spinning (w : vec) (n : nat) : list imu := repeat (Imu 0 (vscale (1 / 100) w) (vscale (1 / 100) (rest_force 0 0 0 10))) n.
Lemma spinning_case d j v w x : exists d0 d2 l, api_init d j (Some (AOpt true (case_opt v false))) None = Some (d0, RGIOE_OK) /\
  o_gb_ini (case_opt v false) = vzero /\
  level_samples (case_opt v false) 0 10 (spinning w 201) /\ Forall (fun y => i_gyro y = vscale (1 / o_rate (case_opt v false)) w) (spinning w 201) /\
  usable (lift 0) /\ usable (lift 2) /\ 1 < travelled (lift 0) (lift 2) < 1000 /\ g_gpst (lift 2) <> g_gpst (lift 0) /\
  api_run d0 (steps (spinning w 201) ++ fix_calls [lift 0; lift 2] ++ [ATime (Some x)]) = Some (d2, l).
Proof.
  eexists. edestruct (defined _ d j v (steps (spinning w 201) ++ fix_calls [lift 0; lift 2] ++ [ATime (Some x)]) eq_refl) as (d1 & l & E).
  - apply Forall_app. split; [apply steps_quiet|]. apply Forall_app. split; [apply fix_quiet|apply one_quiet].
  - rewrite !imus_app, fix_imus, steps_imus, app_length. unfold spinning. rewrite repeat_length. simpl. unfold int_max. lia.
  - exists d1, l. split; [reflexivity|]. split; [reflexivity|]. split.
    { unfold level_samples. repeat split; try (simpl; lra).
      - apply Forall_forall. intros y Hy. apply repeat_spec in Hy. subst y. reflexivity.
      - unfold spinning. rewrite repeat_length. lia. }
    split. { apply Forall_forall. intros y Hy. apply repeat_spec in Hy. subst y. reflexivity. }
    split; [apply usable_lift; lra|]. split; [apply usable_lift; lra|].
    split. { apply (lift_moves 1). rewrite Rabs_right; lra. } split; [simpl; lra|exact E].
Qed.
