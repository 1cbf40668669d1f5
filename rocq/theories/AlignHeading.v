(** Heading, velocity and accuracy after alignment, for a unit that was levelled. *)
From Coq Require Import Reals ZArith List Bool Lia Lra.
From Verif Require Import RealMath EarthModel ConvertModel ConvertSpec ConvertProofs SmoothModel SmoothSpec SmoothProofs SmoothProofs2
  InsModel FusionBase KalmanModel FusionModel AlignModel ApiModel ApiSpec AlignProofs ApiProofs ApiCases AlignExtra.
Import ListNotations.
Local Open Scope R_scope.

Lemma step_displacement p g : align_step p g = displacement p g.
Proof.
  unfold align_step, displacement, distance6, dN_h, dE_h, deg.
  replace (g_lat g * (PI / 180) / 2 + g_lat p * (PI / 180) / 2) with ((g_lat g * (PI / 180) + g_lat p * (PI / 180)) / 2) by field.
  replace (g_height g / 2 + g_height p / 2) with ((g_height g + g_height p) / 2) by field.
  f_equal; ring.
Qed.

(** angles *)
Lemma point_angle x y : x * x + y * y = 1 -> exists t, - PI < t <= PI /\ cos t = x /\ sin t = y.
Proof.
  intros E. assert (B : -1 <= x <= 1) by nra. assert (A := acos_bound x). assert (P := PI_RGT_0).
  assert (C := cos_acos x B). assert (S := sin2_cos2 (acos x)). unfold Rsqr in S. rewrite C in S.
  assert (S0 : 0 <= sin (acos x)) by (apply sin_ge_0; lra).
  destruct (Rle_dec 0 y) as [Y|Y].
  - exists (acos x). repeat split; try lra. nra.
  - exists (- acos x). rewrite cos_neg, sin_neg.
    assert (N : acos x <> PI).
    { intros K. rewrite K, sin_PI in S. assert (y * y = 0) by lra. nra. }
    repeat split; try lra. nra.
Qed.
Lemma atan2_angle t : cos (atan2 (sin t) (cos t)) = cos t /\ sin (atan2 (sin t) (cos t)) = sin t.
Proof.
  destruct (point_angle (cos t) (sin t)) as (u & U & Cu & Su).
  - assert (S := sin2_cos2 t). unfold Rsqr in S. lra.
  - rewrite <- Cu, <- Su. rewrite atan2_sincos by exact U. auto.
Qed.
Definition turn (t : R) : mat := euler_to_dcm (V 0 0 t).
Lemma turn_value t : turn t = M (cos t) (- sin t) 0 (sin t) (cos t) 0 0 0 1.
Proof. unfold turn, euler_to_dcm; simpl. rewrite sin_0, cos_0. f_equal; ring. Qed.
Lemma turn_turn a b : mmul (turn a) (turn b) = turn (a + b).
Proof. rewrite !turn_value. rewrite cos_plus, sin_plus. unfold mmul; simpl. f_equal; ring. Qed.
Lemma turn_euler t : dcm_to_euler (turn t) = eu_of (V 0 0 (atan2 (sin t) (cos t))).
Proof.
  rewrite turn_value. unfold dcm_to_euler; simpl. replace (0 * 0 + 1 * 1) with 1 by ring. rewrite sqrt_1.
  destruct (Rle_dec 0 (- (999 / 1000))) as [N|_]; [lra|]. destruct (Rle_dec (999 / 1000) 0) as [N|_]; [lra|].
  unfold xdiv. destruct (Req_EM_T 1 0) as [N|_]; [lra|]. simpl. unfold eu_of; simpl.
  replace (- 0 / 1) with 0 by field. rewrite atan_0. f_equal. f_equal. rewrite <- sin_0 at 1. rewrite <- cos_0 at 1. apply atan2_sincos. assert (P := PI_RGT_0). lra.
Qed.

(** the last part of the fix update for a level unit *)
Lemma finish_level o n pre g t : usable g -> n_Cbn n = turn t -> exists m, align_finish o n pre g = Some m /\
  n_vn m = n_vn n /\ n_Cbn m = turn (t + vz (o_angle_bv o)) /\
  n_atti m = eu_of (V 0 0 (atan2 (sin (t + vz (o_angle_bv o))) (cos (t + vz (o_angle_bv o))))) /\
  n_vel_std m = vadd (g_std g) (g_std pre) /\
  n_att_std m = V (vx (n_vel_std n) / vx (g_std g)) (vy (n_vel_std n) / vy (g_std g)) (vz (n_vel_std n) / vz (g_std g)) /\
  n_pos m = align_place (turn t) (o_lb_gnss o) g /\ n_pos_std m = g_std g.
Proof.
  intros (R & X & Y & Z) C. unfold align_finish. unfold deg. rewrite R. simpl negb.
  rewrite (proj2 (is_zero_false _) X), (proj2 (is_zero_false _) Y), (proj2 (is_zero_false _) Z). cbn [orb].
  rewrite C. change (align_Cbv o) with (turn (vz (o_angle_bv o))). rewrite turn_turn, turn_euler. cbn [euler_vec eu_of vx vy vz].
  eexists. split; [reflexivity|]. repeat split.
Qed.
Lemma displacement_same p g : g_lat g = g_lat p -> g_lon g = g_lon p -> g_height g = g_height p -> displacement p g = vzero.
Proof. intros A B C. unfold displacement, vzero. rewrite A, B, C. f_equal; ring. Qed.
Definition same_place (p g : gnss) : Prop := g_lat g = g_lat p /\ g_lon g = g_lon p /\ g_height g = g_height p.
Lemma not_moved o p g : 0 <= o_align_vel o -> same_place p g -> align_moving o p g = false.
Proof.
  intros Th (A & B & C). unfold align_moving. rewrite step_displacement, displacement_same by assumption.
  replace (vnorm vzero) with 0. 2: { unfold vnorm, dot, vzero; simpl. replace (0 * 0 + 0 * 0 + 0 * 0) with 0 by ring. symmetry. apply sqrt_0. }
  destruct (Rlt_dec (o_align_vel o) 0); [lra|reflexivity].
Qed.

(** ** a parked unit: fixes at one place *)
Fixpoint parked (g : gnss) (fs : list gnss) : Prop :=
  match fs with [] => True | x :: r => same_place g x /\ usable x /\ parked x r end.
Fixpoint feed_fixes (a : align) (fs : list gnss) : align := match fs with [] => a | g :: r => feed_fixes (align_gnss a g) r end.
Lemma parked_turns fs : forall a n t w, 0 <= o_align_vel (l_opt a) -> usable (l_pre a) -> parked (l_pre a) fs -> l_nav a = Some n ->
  n_Cbn n = turn t -> n_atti n = eu_of (V 0 0 w) -> cos w = cos t -> sin w = sin t ->
  let b := feed_fixes a fs in let u := t + INR (length fs) * vz (o_angle_bv (l_opt a)) in
  l_opt b = l_opt a /\ l_level b = l_level a /\ l_yaw b = l_yaw a /\
  exists m w2, l_nav b = Some m /\ n_Cbn m = turn u /\ n_atti m = eu_of (V 0 0 w2) /\ cos w2 = cos u /\ sin w2 = sin u.
Proof.
  induction fs as [|g fs IH]; intros a n t w Th Up Pk En Ec Ea Cw Sw; cbn [feed_fixes].
  - simpl. repeat split; auto. exists n, w. replace (t + 0 * vz (o_angle_bv (l_opt a))) with t by ring. auto.
  - destruct Pk as (Sp & Ug & Pk).
    destruct (finish_level (l_opt a) n (l_pre a) g t Ug Ec) as (m & Em & _ & Cm & Am & _).
    assert (Eg : l_nav (align_gnss a g) = Some m /\ l_pre (align_gnss a g) = g /\ l_opt (align_gnss a g) = l_opt a /\
                 l_level (align_gnss a g) = l_level a /\ l_yaw (align_gnss a g) = l_yaw a).
    { unfold align_gnss. destruct Up as (_ & X & _). rewrite (proj2 (is_zero_false _) X), (not_moved _ _ _ Th Sp).
      simpl. rewrite En. simpl. rewrite Em, orb_false_r. auto. }
    destruct Eg as (E1 & E2 & E3 & E4 & E5). set (s := t + vz (o_angle_bv (l_opt a))) in *.
    destruct (atan2_angle s) as [Ca Sa]. rewrite <- E2 in Pk, Ug. rewrite <- E3 in Th.
    destruct (IH _ m s _ Th Ug Pk E1 Cm Am Ca Sa) as (F1 & F2 & F3 & m2 & w2 & F4 & F5 & F6 & F7 & F8).
    rewrite E3 in *. rewrite F1, F2, F3, E4, E5. repeat split; auto. exists m2, w2.
    replace (t + INR (length (g :: fs)) * vz (o_angle_bv (l_opt a))) with (s + INR (length fs) * vz (o_angle_bv (l_opt a))).
    + auto.
    + cbn [length]. rewrite S_INR. unfold s. ring.
Qed.

(** ** through the interface *)
Definition fix_calls (fs : list gnss) : list api_call := map (fun g => AGnss (Some g)) fs.
Lemma fix_run fs : forall d, d_status d = RGIOE_STATUS_ATTITUDE -> exists l,
  api_run d (fix_calls fs) = Some (d_with_align d (feed_fixes (d_align d) fs), l).
Proof.
  induction fs as [|g fs IH]; intros d St; cbn [fix_calls map api_run api_do feed_fixes].
  - exists []. destruct d; reflexivity.
  - unfold api_gnss. rewrite St. destruct (IH (d_with_align d (align_gnss (d_align d) g))) as [l E].
    + destruct d; exact St.
    + fold (fix_calls fs). rewrite E. eexists. destruct d; reflexivity.
Qed.
Lemma level_leveled o k h : 0 < k -> o_ab_ini o = vzero -> o_as_ini o = vzero ->
  level_roll (leveled o (rest_force 0 0 h k)) = 0 /\ level_pitch (leveled o (rest_force 0 0 h k)) = 0.
Proof.
  intros K A B. assert (P := PI_RGT_0). destruct (level_upright o k 0 0 h K A B) as [E1 E2]; [lra|lra|].
  rewrite E1, E2. rewrite sin_0, Rmult_0_l, asin_0. auto.
Qed.
(** the state of a level unit after the samples *)
Definition level_samples (o : option_t) (h g : R) (hs : list imu) : Prop :=
  0 < o_rate o /\ o_ab_ini o = vzero /\ o_as_ini o = vzero /\ 0 < g /\
  Forall (fun x => i_acce x = vscale (1 / o_rate o) (rest_force 0 0 h g)) hs /\ (200 < length hs)%nat.
Lemma level_state d j ao n d0 h g hs d1 l : api_init d j (Some ao) n = Some (d0, RGIOE_OK) ->
  o_align_mode (ao_rest ao) <> ALIGN_USE_GIVEN -> level_samples (ao_rest ao) h g hs -> api_run d0 (steps hs) = Some (d1, l) ->
  d_status d1 = RGIOE_STATUS_ATTITUDE /\ d_opt d1 = ao_rest ao /\ d_fusion d1 = Some (fusion_new (j_ins j) (j_opt j)) /\
  d_det d1 = fusion_smooth /\ l_opt (d_align d1) = ao_rest ao /\ l_vpre (d_align d1) = j_vpre j /\ l_pre (d_align d1) = gnss_none /\
  l_level (d_align d1) = true /\ l_yaw (d_align d1) = false /\
  exists m, l_nav (d_align d1) = Some m /\ n_vn m = vzero /\ n_vel_std m = vzero /\ n_atti m = eu_of (V 0 0 0) /\ n_Cbn m = turn 0.
Proof.
  intros I Mo (Hr & A & B & G & S & L) H. assert (Hr2 : o_rate (ao_rest ao) <> 0) by lra.
  destruct (held_status _ _ _ _ _ _ _ _ _ I Mo Hr2 S L H) as (St & R & Lv & Op & Fu & De).
  destruct (imu_only _ _ _ _ _ Hr2 S R) as (Ho & Hv & Hp & Hy & m & En & Ev & Es & _ & _ & e & Ee & Ec & _ & Et).
  repeat split; auto. exists m. specialize (Et Lv). rewrite scaled_force in Et.
  assert (K : 0 < 1 / o_rate (ao_rest ao) * g).
  { apply Rmult_lt_0_compat; [apply Rdiv_lt_0_compat; lra|exact G]. }
  destruct (level_leveled (ao_rest ao) _ h K A B) as [E1 E2]. rewrite E1, E2 in Et. subst e. repeat split; auto.
Qed.
Lemma result_attitude d b m w : d_status d = RGIOE_STATUS_ATTITUDE -> l_nav (d_align d) = Some m -> n_atti m = eu_of (V 0 0 w) ->
  exists q, api_do d (AResult b) = Some (d, RPva (Some q)) /\ p_atti q = Some (vdiv (V 0 0 w) deg) /\ p_atti_std q = Some (n_att_std m).
Proof.
  intros St En Ea. cbn [api_do]. unfold api_result. rewrite St, En. simpl. rewrite Ea. simpl. eexists. split; [reflexivity|]. auto.
Qed.
Lemma installation_turns d j ao n d0 h gr hs p fs d1 l b : api_init d j (Some ao) n = Some (d0, RGIOE_OK) ->
  let o := ao_rest ao in o_align_mode o <> ALIGN_USE_GIVEN -> level_samples o h gr hs -> 0 <= o_align_vel o ->
  usable p -> parked p fs -> api_run d0 (steps hs ++ fix_calls (p :: fs)) = Some (d1, l) ->
  d_status d1 = RGIOE_STATUS_ATTITUDE /\ exists q v, api_do d1 (AResult b) = Some (d1, RPva (Some q)) /\ p_atti q = Some v /\
  let u := INR (length fs) * vz (o_angle_bv o) in
  cos (vz v * (PI / 180)) = cos u /\ sin (vz v * (PI / 180)) = sin u.
Proof.
  intros I o Mo Ls Th Up Pk H. rewrite api_run_app in H. destruct (api_run d0 (steps hs)) as [[d2 l2]|] eqn:E; [|discriminate].
  destruct (level_state _ _ _ _ _ _ _ _ _ _ I Mo Ls E) as (St & _ & _ & _ & Ho & Hv & Hp & Lv & Hy & m & En & _ & _ & Ea & Ec).
  destruct (fix_run (p :: fs) d2 St) as [l3 F]. rewrite F in H. injection H as <- _. cbn [feed_fixes].
  assert (Ep : align_gnss (d_align d2) p = Al (l_nav (d_align d2)) (l_gpst (d_align d2)) (l_level (d_align d2)) (l_yaw (d_align d2))
                 (l_smooth (d_align d2)) p (l_opt (d_align d2)) (l_vpre (d_align d2))).
  { unfold align_gnss. rewrite Hp. simpl. rewrite (proj2 (is_zero_true 0)); reflexivity. }
  set (a := align_gnss (d_align d2) p) in *.
  assert (A1 : l_pre a = p) by (rewrite Ep; reflexivity). assert (A2 : l_nav a = Some m) by (rewrite Ep; exact En).
  assert (A3 : l_opt a = o) by (rewrite Ep; exact Ho).
  destruct (parked_turns fs a m 0 0) as (_ & _ & _ & m2 & w2 & F4 & F5 & F6 & F7 & F8); rewrite ?A1, ?A3; auto.
  set (d1 := d_with_align d2 (feed_fixes a fs)). assert (S1 : d_status d1 = RGIOE_STATUS_ATTITUDE) by exact St.
  split; [exact S1|]. destruct (result_attitude d1 b m2 w2 S1 F4 F6) as (q & Eq & Eq2 & _).
  exists q. eexists. split; [exact Eq|]. split; [exact Eq2|]. unfold vdiv. cbn [vz]. rewrite A3 in F7, F8.
  assert (D := deg_nonzero). fold deg. replace (w2 / deg * deg) with w2 by (field; exact D).
  replace (INR (length fs) * vz (o_angle_bv o)) with (0 + INR (length fs) * vz (o_angle_bv o)) by ring. auto.
Qed.

(** ** two fixes with a displacement between them *)
Lemma heading_defined n vpre p g t : g_gpst g <> g_gpst p -> n_atti n = eu_of (V 0 0 t) ->
  exists m, align_heading n vpre p g = Some m /\
  n_vn m = vsub (vscale (3 / 2) (displacement p g)) (vscale (1 / 2) vpre) /\
  n_Cbn m = turn (atan2 (vy (n_vn m)) (vx (n_vn m))) /\ n_vel_std m = V (3 / 10) (3 / 10) (3 / 10).
Proof.
  intros T A. unfold align_heading. rewrite step_displacement.
  assert (Z : g_gpst g - g_gpst p <> 0) by lra. rewrite (proj2 (is_zero_false _) Z). rewrite A. cbn [euler_vec eu_of vx vy vz].
  eexists. split; [reflexivity|]. cbn [n_vn n_Cbn n_vel_std].
  split; [|split; reflexivity].
  destruct (displacement p g) as [x y z], vpre as [a b c]. unfold vadd, vsub, vscale, vdiv. cbn [vx vy vz]. f_equal; field; exact Z.
Qed.
Lemma moved_state d j ao n d0 h gr hs p g d1 l : api_init d j (Some ao) n = Some (d0, RGIOE_OK) ->
  let o := ao_rest ao in o_align_mode o <> ALIGN_USE_GIVEN -> level_samples o h gr hs ->
  usable p -> usable g -> o_align_vel o < travelled p g < 1000 -> g_gpst g <> g_gpst p ->
  api_run d0 (steps hs ++ fix_calls [p; g]) = Some (d1, l) ->
  d_status d1 = RGIOE_STATUS_ATTITUDE /\ d_opt d1 = o /\ d_fusion d1 = Some (fusion_new (j_ins j) (j_opt j)) /\ d_det d1 = fusion_smooth /\
  l_level (d_align d1) = true /\ l_yaw (d_align d1) = true /\
  exists m, l_nav (d_align d1) = Some m /\
    n_vn m = vsub (vscale (3 / 2) (displacement p g)) (vscale (1 / 2) (j_vpre j)) /\
    (let u := atan2 (vy (n_vn m)) (vx (n_vn m)) in let v := u + vz (o_angle_bv o) in
     n_atti m = eu_of (V 0 0 (atan2 (sin v) (cos v))) /\ n_pos m = align_place (turn u) (o_lb_gnss o) g) /\
    n_att_std m = V (3 / 10 / vx (g_std g)) (3 / 10 / vy (g_std g)) (3 / 10 / vz (g_std g)).
Proof.
  intros I o Mo Ls Up Ug Mv Ti H. rewrite api_run_app in H. destruct (api_run d0 (steps hs)) as [[d2 l2]|] eqn:E; [|discriminate].
  destruct (level_state _ _ _ _ _ _ _ _ _ _ I Mo Ls E) as (St & Op & Fu & De & Ho & Hv & Hp & Lv & Hy & m & En & _ & _ & Ea & Ec).
  destruct (fix_run [p; g] d2 St) as [l3 F]. rewrite F in H. injection H as <- _. cbn [feed_fixes].
  assert (Ep : align_gnss (d_align d2) p = Al (l_nav (d_align d2)) (l_gpst (d_align d2)) (l_level (d_align d2)) (l_yaw (d_align d2))
                 (l_smooth (d_align d2)) p (l_opt (d_align d2)) (l_vpre (d_align d2))).
  { unfold align_gnss. rewrite Hp. simpl. rewrite (proj2 (is_zero_true 0)); reflexivity. }
  destruct (heading_defined m (j_vpre j) p g 0 Ti Ea) as (m1 & E1 & V1 & C1 & S1).
  destruct (finish_level o m1 p g _ Ug C1) as (m2 & E2 & V2 & C2 & A2 & _ & S2 & P2 & _).
  assert (Eg : align_gnss (align_gnss (d_align d2) p) g = Al (Some m2) (g_gpst g) true true (l_smooth (d_align d2)) g o (align_step p g)).
  { rewrite Ep. unfold align_gnss. cbn [l_pre l_opt l_nav l_gpst l_level l_yaw l_smooth l_vpre].
    destruct Up as (_ & X & _). rewrite (proj2 (is_zero_false _) X). rewrite Ho. fold o.
    rewrite (proj2 (moving_spec o p g) Mv). rewrite En, Hv. cbn [bind]. rewrite E1. cbn [bind]. rewrite E2, Lv, orb_true_r. reflexivity. }
  rewrite Eg. cbn [d_status d_opt d_fusion d_det d_align d_with_align l_level l_yaw l_nav].
  split; [exact St|]. split; [exact Op|]. split; [exact Fu|]. split; [exact De|]. split; [reflexivity|]. split; [reflexivity|].
  exists m2. split; [reflexivity|]. split; [congruence|]. split.
  - rewrite V2. split; [exact A2|exact P2].
  - rewrite S2, S1. reflexivity.
Qed.
Lemma moved_accuracy d j ao n d0 h gr hs p g d1 l b : api_init d j (Some ao) n = Some (d0, RGIOE_OK) ->
  let o := ao_rest ao in o_align_mode o <> ALIGN_USE_GIVEN -> level_samples o h gr hs ->
  usable p -> usable g -> o_align_vel o < travelled p g < 1000 -> g_gpst g <> g_gpst p ->
  api_run d0 (steps hs ++ fix_calls [p; g]) = Some (d1, l) ->
  exists q, api_do d1 (AResult b) = Some (d1, RPva (Some q)) /\
    p_atti_std q = Some (V (3 / 10 / vx (g_std g)) (3 / 10 / vy (g_std g)) (3 / 10 / vz (g_std g))).
Proof.
  intros I o Mo Ls Up Ug Mv Ti H.
  destruct (moved_state _ _ _ _ _ _ _ _ _ _ _ _ I Mo Ls Up Ug Mv Ti H) as (St & _ & _ & _ & _ & _ & m & En & _ & [Ea _] & Es).
  destruct (result_attitude d1 b m _ St En Ea) as (q & Eq & _ & Eq2). exists q. rewrite Eq2, Es. auto.
Qed.
Lemma moved_velocity d j ao n d0 h gr hs p g x d2 l : api_init d j (Some ao) n = Some (d0, RGIOE_OK) ->
  let o := ao_rest ao in o_align_mode o <> ALIGN_USE_GIVEN -> level_samples o h gr hs ->
  o_gt_corr o <> 0 -> o_at_corr o <> 0 -> o_project o = false ->
  usable p -> usable g -> o_align_vel o < travelled p g < 1000 -> g_gpst g <> g_gpst p ->
  api_run d0 (steps hs ++ fix_calls [p; g] ++ [ATime (Some x)]) = Some (d2, l) ->
  d_status d2 = RGIOE_STATUS_NAVIGATION /\
  exists s, api_do d2 AVel = Some (d2, RTriple (Some (vsub (vscale (3 / 2) (displacement p g)) (vscale (1 / 2) (j_vpre j)))) s).
Proof.
  intros I o Mo Ls Hg Ha Hp Up Ug Mv Ti H. rewrite app_assoc, api_run_app in H.
  destruct (api_run d0 (steps hs ++ fix_calls [p; g])) as [[d1 l1]|] eqn:E; [|discriminate].
  destruct (moved_state _ _ _ _ _ _ _ _ _ _ _ _ I Mo Ls Up Ug Mv Ti E) as (St & Op & Fu & De & Lv & Yw & m & En & Vn & _ & Es).
  cbn [api_run api_do] in H. unfold api_time in H. rewrite St in H.
  destruct (align_imu (d_align d1) x) as [a|] eqn:Ea; [|discriminate].
  unfold align_imu in Ea. destruct (smooth_update (l_smooth (d_align d1)) x) as [sm|]; [|discriminate]. rewrite Lv, Yw, En in Ea.
  injection Ea as <-. cbn [l_level l_yaw andb l_nav] in H. injection H as <- _. split; [reflexivity|].
  cbn [api_do]. unfold api_vel, df_output, df_init. cbn [d_fusion d_with_status d_with_fusion d_with_align d_opt]. rewrite Fu, Op. cbn [bind].
  destruct Ls as (Hr & _). unfold initialize. fold o.
  rewrite (proj2 (is_zero_false (o_rate o)) (Rgt_not_eq _ _ Hr)).
  rewrite (proj2 (is_zero_false (o_gt_corr o)) Hg), (proj2 (is_zero_false (o_at_corr o)) Ha). cbn [orb bind].
  unfold output, out_place. cbn [f_opt]. rewrite Hp. cbn [bind p_vn f_ins s_nav ins_nav init_pva nav_kd n_vn nav_time]. rewrite Vn. eexists. reflexivity.
Qed.
(** any velocity may come out *)
Lemma velocity_free p g w : exists v, vsub (vscale (3 / 2) (displacement p g)) (vscale (1 / 2) v) = w.
Proof.
  exists (vsub (vscale 3 (displacement p g)) (vscale 2 w)). destruct (displacement p g) as [x y z], w as [a b c].
  unfold vsub, vscale; simpl. f_equal; field.
Qed.
