(** Properties C110-C114: the recording the library writes when built with the recorder. *)
From Coq Require Import Reals ZArith List Bool Lia Lra.
From Flocq Require Import Core.
From Verif Require Import FloatSpec FloatOutProofs RealMath EarthModel ConvertModel ConvertSpec ConvertProofs SmoothModel InsModel InsProofs FusionBase FusionModel FusionSpec FusionCases AlignModel AhrsModel ApiModel
  ApiSpec AlignProofs ApiProofs ApiCases ApiPosStd AlignExtra AlignHeading AlignStart AlignCase DiaryModel DiarySpec DiaryProofs DiaryInno DiaryFloat DiaryAlign.
Import ListNotations.
Local Open Scope R_scope.

(** ** C110: recorded samples *)
(** with a given state all samples are recorded, unchanged and in order, and so they are by a device that navigates *)
Theorem C110_given : forall y ao p cs y' l, started y ao p -> Forall quiet cs -> diary_run y cs = Some (y', l) ->
  imu_part l = map as_given (imus cs).
Proof. intros y ao p cs y' l S F H. exact (proj1 (given_samples y ao p cs y' l S F H)). Qed.
Print Assumptions C110_given.
Theorem C110_navigating_partial : forall y cs y' l, d_status (y_dev y) = RGIOE_STATUS_NAVIGATION -> Forall quiet cs ->
  diary_run y cs = Some (y', l) -> imu_part l = map as_given (imus cs).
Proof. intros y cs y' l S F H. exact (proj1 (proj2 (nav_run_samples cs y y' l S F H))). Qed.
Print Assumptions C110_navigating_partial.
(** REFUTED for a device that aligns itself: up to and with the call that starts navigation no sample and no fix is recorded *)
Theorem C110_alignment_REFUTED : forall y ao cs c y1 l1 y2 l2, started_aligning y ao -> Forall quiet (cs ++ [c]) ->
  diary_run y cs = Some (y1, l1) -> d_status (y_dev y1) <> RGIOE_STATUS_NAVIGATION -> diary_do y1 c = Some (y2, l2) ->
  imu_part (l1 ++ l2) = [] /\ fix_part (l1 ++ l2) = [].
Proof. exact alignment_unrecorded. Qed.
Print Assumptions C110_alignment_REFUTED.

(** the recorder changes nothing of what the calls do, and stops no call *)
Theorem C110_transparent : forall cs y, 
  (forall y' l, diary_run y cs = Some (y', l) -> exists a, api_run (y_dev y) cs = Some (y_dev y', a)) /\
  (forall d a, api_run (y_dev y) cs = Some (d, a) -> exists y' l, diary_run y cs = Some (y', l) /\ y_dev y' = d).
Proof. intros cs y. split; [intros y' l; apply diary_run_api|intros d a; apply api_run_diary]. Qed.
Print Assumptions C110_transparent.

(** a device with a given state and one sample: it is recorded, and a result is there *)
Lemma case_recorded t : exists y y1 l d q, started y given_ao pva_zero /\ diary_run y [ATime (Some (case_sample 0 t))] = Some (y1, l) /\
  d_status (y_dev y1) = RGIOE_STATUS_NAVIGATION /\ api_do (y_dev y1) (AResult pva_zero) = Some (d, RPva (Some q)).
Proof.
  set (y0 := Diary (Dev RGIOE_STATUS_INIT given_opt pva_zero (align_new vzero given_opt) None fusion_smooth) 0 None None).
  destruct (given_first_sample (y_dev y0) t) as (d0 & d1 & u & A & B & C).
  assert (A2 : api_do (y_dev y0) (AInit given_junk (Some given_ao) (Some pva_zero)) = Some (d0, RCode RGIOE_OK)) by (cbn [api_do]; rewrite A; reflexivity).
  set (y := Diary d0 0 (Some vzero) (if is_zero (o_rate (ao_rest given_ao)) then None else Some (ahrs_new (1 / o_rate (ao_rest given_ao))))).
  assert (Y : started y given_ao pva_zero).
  { exists y0, given_junk. split; [reflexivity|]. cbn [diary_do]. rewrite A2. reflexivity. }
  destruct (api_diary y _ _ _ B) as (y1 & m & E & F). exists y, y1, (m ++ []).
  assert (N : navigating y1). { destruct (started_about _ _ _ Y) as [Ab _]. exact (proj1 (about_sample _ _ _ _ Ab E)). }
  do 2 eexists. split; [exact Y|]. split; [cbn [diary_run]; rewrite E; reflexivity|]. split; [exact N|].
  cbn [api_do]. unfold api_result. unfold navigating in N. rewrite N. unfold df_output. rewrite F, C. cbn [bind]. unfold output, out_place.
  destruct (ready_run [ATime (Some (case_sample 0 t))] y y1 (m ++ [])) as [Rd|Ab].
  - right. exact (proj1 (started_about _ _ _ Y)).
  - repeat constructor.
  - cbn [diary_run]. rewrite E. reflexivity.
  - destruct Rd as [_ So]. destruct (So u) as (_ & _ & O); [rewrite F; exact C|]. rewrite O.
    destruct (started_about _ _ _ Y) as (Ab & _ & Oy). rewrite (proj2 (proj2 (proj2 (proj2 (about_sample _ _ _ _ Ab E))))), Oy. reflexivity.
  - destruct Ab as [Ab _]. unfold navigating in N. congruence.
Qed.
Example C110_case : forall t, exists y y1 l, started y given_ao pva_zero /\ diary_run y [ATime (Some (case_sample 0 t))] = Some (y1, l) /\
  imu_part l = [as_given (case_sample 0 t)].
Proof.
  intros t. destruct (case_recorded t) as (y & y1 & l & d & q & A & B & _). exists y, y1, l. split; [exact A|]. split; [exact B|].
  refine (C110_given _ _ _ _ _ _ A _ B). repeat constructor.
Qed.
(** a device that aligns itself, mounted with an angle of one radian: 201 samples of a level unit and a fix, none of them recorded *)
Definition turned_opt : option_t :=
  Opt 0 1 vzero vzero vzero vzero vzero vzero 3600 3600 100 0 1 vzero 1 false 1 1 false 1 false 1 false 1 1 vzero (V 0 0 1) vzero vzero vzero false vzero vzero.
Definition turned_ao : api_option := AOpt true turned_opt.
Lemma case_aligning : exists y y1 l, started_aligning y turned_ao /\
  diary_run y (steps (tilted 0 0 201) ++ fix_calls [lift 0]) = Some (y1, l) /\ d_status (y_dev y1) = RGIOE_STATUS_ATTITUDE /\
  l_pre (d_align (y_dev y1)) = lift 0 /\ l_opt (d_align (y_dev y1)) = turned_opt /\
  exists n, l_nav (d_align (y_dev y1)) = Some n /\ n_atti n = eu_of (V 0 0 0) /\ n_Cbn n = turn 0.
Proof.
  set (y0 := Diary (Dev RGIOE_STATUS_INIT given_opt pva_zero (align_new vzero given_opt) None fusion_smooth) 0 None None).
  assert (Ls : level_samples turned_opt 0 10 (tilted 0 0 201)) by exact (level_case 1).
  destruct (api_init (y_dev y0) given_junk (Some turned_ao) None) as [[d0 e]|] eqn:A; [|discriminate A].
  assert (e = RGIOE_OK) as -> by (simpl in A; congruence).
  assert (Q : Forall quiet (steps (tilted 0 0 201) ++ fix_calls [lift 0])).
  { apply Forall_app. split; [apply steps_quiet|apply fix_quiet]. }
  destruct (history_defined _ _ _ _ _ _ A Q) as (d1 & l & H).
  { rewrite PostTime.imus_app, fix_imus, app_nil_r, steps_imus. unfold tilted. rewrite repeat_length. unfold int_max. lia. }
  set (y := Diary d0 0 (Some vzero) (if is_zero (o_rate turned_opt) then None else Some (ahrs_new (1 / o_rate turned_opt)))).
  destruct (api_run_diary _ y _ _ H) as (y1 & m & B & D). exists y, y1, m.
  split. { exists y0, given_junk, None. split; [discriminate|]. cbn [diary_do api_do]. rewrite A. reflexivity. }
  split; [exact B|]. rewrite D. rewrite api_run_app in H. destruct (api_run d0 (steps (tilted 0 0 201))) as [[d2 l2]|] eqn:E; [|discriminate].
  assert (Mo : o_align_mode (ao_rest turned_ao) <> ALIGN_USE_GIVEN) by discriminate.
  destruct (level_state _ _ turned_ao _ _ _ _ _ _ _ A Mo Ls E) as (St & _ & _ & _ & Ho & Hv & Hp & Lv & Hy & n & En & _ & _ & Ea & Ec).
  destruct (fix_run [lift 0] d2 St) as [l3 F]. rewrite F in H. injection H as <- _. cbn [feed_fixes].
  cbn [d_status d_align d_with_align]. split; [exact St|].
  unfold align_gnss. rewrite Hp. simpl (vx _). rewrite (proj2 (is_zero_true 0)) by reflexivity. cbn [l_pre l_nav l_opt]. split; [reflexivity|]. split; [exact Ho|].
  exists n. auto.
Qed.
Example C110_alignment_case : exists y y1 l, started_aligning y turned_ao /\
  diary_run y (steps (tilted 0 0 201) ++ fix_calls [lift 0]) = Some (y1, l) /\ d_status (y_dev y1) <> RGIOE_STATUS_NAVIGATION.
Proof. destruct case_aligning as (y & y1 & l & A & B & C & _). exists y, y1, l. split; [exact A|]. split; [exact B|]. congruence. Qed.

(** ** C111: recorded biases are those a result read at that moment reports, one record for each sample *)
Theorem C111_reported : forall y x y' m p d q, d_status (y_dev y) = RGIOE_STATUS_NAVIGATION \/
    d_status (y_dev y) = RGIOE_STATUS_INIT /\ o_align_mode (d_opt (y_dev y)) = ALIGN_USE_GIVEN ->
  diary_do y (ATime (Some x)) = Some (y', m) -> api_do (y_dev y') (AResult p) = Some (d, RPva (Some q)) ->
  bias_part m = [(i_gpst x, Some (p_ab q, p_gb q))].
Proof. exact bias_reported. Qed.
Print Assumptions C111_reported.
Theorem C111_each_sample : forall y ao p cs y' l, started y ao p -> Forall quiet cs -> diary_run y cs = Some (y', l) ->
  map fst (bias_part l) = map i_gpst (imus cs).
Proof. intros y ao p cs y' l S F H. exact (proj2 (given_samples y ao p cs y' l S F H)). Qed.
Print Assumptions C111_each_sample.
Example C111_case : forall t, exists y y1 l d q, started y given_ao pva_zero /\ diary_do y (ATime (Some (case_sample 0 t))) = Some (y1, l) /\
  api_do (y_dev y1) (AResult pva_zero) = Some (d, RPva (Some q)).
Proof.
  intros t. destruct (case_recorded t) as (y & y1 & l & d & q & A & B & _ & C). cbn [diary_run] in B.
  destruct (diary_do y _) as [[y2 m]|] eqn:E; [|discriminate]. injection B as <- _. exists y, y2, m, d, q. auto.
Qed.

(** ** C112: recorded fixes *)
(** what holds: from the first sample on every fix is recorded in order, with its displacement from the given place and the low
    eight bits of its mode; fixes before the first sample are not recorded *)
Theorem C112_place_partial : forall y ao p a cs y' l, started y ao p -> p_atti p = Some a -> Forall quiet cs ->
  diary_run y cs = Some (y', l) ->
  fix_part l = map (fun tg => (fst tg, Some (displacement (place_fix (p_lat p) (p_lon p) (p_height p)) (snd tg)), (g_mode (snd tg) mod 256)%Z))
    (fixes_at None cs).
Proof. exact given_fixes. Qed.
Print Assumptions C112_place_partial.
(** REFUTED: the time of a fix is not recorded: with any other times of the fixes the recording is the same, and so is all else *)
Theorem C112_time_REFUTED : forall f y ao p cs, started y ao p -> Forall quiet cs -> diary_run y (retimed f cs) = diary_run y cs.
Proof. exact given_retimed. Qed.
Print Assumptions C112_time_REFUTED.
(** a fix of mode 260 that the filter does not use is recorded as mode 4 *)
Example C112_case : forall t h, exists y y1 l, started y given_ao pva_zero /\
  diary_run y [AGnss (Some (lift h)); ATime (Some (case_sample 0 t)); AGnss (Some (Gnss 0 0 h vzero h 260))] = Some (y1, l) /\
  exists x, fix_part l = [(t, x, 4%Z)].
Proof.
  intros t h. destruct (case_recorded t) as (y & _ & _ & _ & _ & A & _).
  assert (Q : Forall quiet [AGnss (Some (lift h)); ATime (Some (case_sample 0 t)); AGnss (Some (Gnss 0 0 h vzero h 260))]) by repeat constructor.
  destruct A as (y0 & j & Mo & Hi). cbn [diary_do] in Hi. destruct (api_do _ _) as [[d0 a]|] eqn:Ei; [|discriminate]. injection Hi as <-.
  cbn [api_do] in Ei. destruct (api_init _ _ _ _) as [[d2 e]|] eqn:E2; [|discriminate]. injection Ei as <- _.
  assert (e = RGIOE_OK) as -> by (simpl in E2; congruence).
  destruct (history_defined _ _ _ _ _ _ E2 Q) as (d1 & l & H); [simpl; unfold int_max; lia|].
  set (y := Diary d2 0 (Some vzero) (if is_zero (o_rate (ao_rest given_ao)) then None else Some (ahrs_new (1 / o_rate (ao_rest given_ao))))). destruct (api_run_diary _ y _ _ H) as (y1 & l1 & B & _).
  assert (S : started y given_ao pva_zero).
  { exists y0, j. split; [exact Mo|]. cbn [diary_do api_do]. rewrite E2. reflexivity. }
  exists y, y1, l1. split; [exact S|]. split; [exact B|]. rewrite (C112_place_partial _ _ _ vzero _ _ _ S eq_refl Q B). eexists. reflexivity.
Qed.

(** ** C113: recorded innovations. A fix with a usable mode leaves one record: the place a result read just before reports minus the
    place of the fix, as north, east and down components, with the time of that result and the scaled squares of the accuracies *)
Theorem C113_innovation : forall y ao p cs y1 l g y2 m b d q, started y ao p -> o_project (ao_rest ao) = false -> o_lb_gnss (ao_rest ao) = vzero ->
  Forall quiet cs -> diary_run y cs = Some (y1, l) -> d_status (y_dev y1) = RGIOE_STATUS_NAVIGATION ->
  api_do (y_dev y1) (AResult b) = Some (d, RPva (Some q)) -> diary_do y1 (AGnss (Some g)) = Some (y2, m) ->
  fix_mode (g_mode g) = true ->
  exists z, inno_part m = [(p_gpst q, Some z, vscale (o_gnss_scale (ao_rest ao)) (V (vx (g_std g) * vx (g_std g)) (vy (g_std g) * vy (g_std g)) (vz (g_std g) * vz (g_std g))))] /\
    local_vector (p_lat q * deg) (p_lon q * deg) z = vsub (place_of q) (fix_at g).
Proof. exact inno_reported. Qed.
Print Assumptions C113_innovation.
(** other fixes and other calls leave none *)
Theorem C113_none : forall y g y' m, d_status (y_dev y) = RGIOE_STATUS_NAVIGATION -> fix_mode (g_mode g) = false ->
  diary_do y (AGnss (Some g)) = Some (y', m) -> inno_part m = [].
Proof. intros y g y' m N F H. rewrite (inno_of_fix _ _ _ _ N H), F. reflexivity. Qed.
Print Assumptions C113_none.
Theorem C113_only_fixes : forall y c y' m, d_status (y_dev y) = RGIOE_STATUS_NAVIGATION \/
    d_status (y_dev y) = RGIOE_STATUS_INIT /\ o_align_mode (d_opt (y_dev y)) = ALIGN_USE_GIVEN ->
  quiet c -> (forall g, c <> AGnss (Some g)) -> diary_do y c = Some (y', m) -> inno_part m = [].
Proof. exact inno_other. Qed.
Print Assumptions C113_only_fixes.
Example C113_case : forall t h, exists y y1 l y2 m d q, started y given_ao pva_zero /\ diary_run y [ATime (Some (case_sample 0 t))] = Some (y1, l) /\
  d_status (y_dev y1) = RGIOE_STATUS_NAVIGATION /\ api_do (y_dev y1) (AResult pva_zero) = Some (d, RPva (Some q)) /\
  diary_do y1 (AGnss (Some (lift h))) = Some (y2, m) /\ fix_mode (g_mode (lift h)) = true /\
  o_project (ao_rest given_ao) = false /\ o_lb_gnss (ao_rest given_ao) = vzero.
Proof.
  intros t h. destruct (case_recorded t) as (y & y1 & l & d & q & A & B & N & C).
  destruct (diary_do y1 (AGnss (Some (lift h)))) as [[y2 m]|] eqn:E; [|discriminate E].
  exists y, y1, l, y2, m, d, q. repeat split; auto.
Qed.

(** ** C114: the recording of an alignment *)
(** REFUTED: once levelled, the attitude a result reports in degrees is recorded in radians *)
Theorem C114_attitude_REFUTED : forall y g y' m p d q a, d_status (y_dev y) = RGIOE_STATUS_ATTITUDE -> vx (g_std (l_pre (d_align (y_dev y)))) <> 0 ->
  diary_do y (AGnss (Some g)) = Some (y', m) -> api_do (y_dev y') (AResult p) = Some (d, RPva (Some q)) -> p_atti q = Some a ->
  exists pos vn v s st yw lv, m = [MAlign (p_gpst q) (Some (pos, vn, Some (vscale (PI / 180) a))) v s st yw lv].
Proof. exact align_record. Qed.
Print Assumptions C114_attitude_REFUTED.
(** the attitude-only filter: no record up to levelling; from then on one record for each sample up to and with the call that starts
    navigation, with the attitude in degrees of a filter (AhrsModel; C109 tells how good it is) that starts from the levelled attitude
    with the sampling period of the options *)
Theorem C114_filter_partial : forall y ao cs y1 l1 x y2 m p d q a cs2 y3 l3 c y4 m4, started_aligning y ao -> o_rate (ao_rest ao) <> 0 ->
  Forall quiet (cs ++ cs2 ++ [c]) -> diary_run y cs = Some (y1, l1) -> d_status (y_dev y1) = RGIOE_STATUS_ALIGN ->
  diary_do y1 (ATime (Some x)) = Some (y2, m) -> d_status (y_dev y2) = RGIOE_STATUS_ATTITUDE ->
  api_do (y_dev y2) (AResult p) = Some (d, RPva (Some q)) -> p_atti q = Some a ->
  diary_run y2 cs2 = Some (y3, l3) -> d_status (y_dev y3) = RGIOE_STATUS_ATTITUDE -> diary_do y3 c = Some (y4, m4) ->
  atti_part (l1 ++ m) = [] /\
  atti_part (l3 ++ m4) = tracked (ahrs_set_quat (ahrs_new (1 / o_rate (ao_rest ao))) (euler_to_quaternion (V (vx a * PI / 180) (vy a * PI / 180) (vz a * PI / 180))))
    (imus (cs2 ++ [c])).
Proof. exact filter_recorded. Qed.
Print Assumptions C114_filter_partial.
Example C114_filter_case : exists y cs y1 l1 x y2 m d q a cs2 y3 l3 c y4 m4, started_aligning y turned_ao /\ o_rate (ao_rest turned_ao) <> 0 /\
  Forall quiet (cs ++ cs2 ++ [c]) /\ diary_run y cs = Some (y1, l1) /\ d_status (y_dev y1) = RGIOE_STATUS_ALIGN /\
  diary_do y1 (ATime (Some x)) = Some (y2, m) /\ d_status (y_dev y2) = RGIOE_STATUS_ATTITUDE /\
  api_do (y_dev y2) (AResult pva_zero) = Some (d, RPva (Some q)) /\ p_atti q = Some a /\
  diary_run y2 cs2 = Some (y3, l3) /\ d_status (y_dev y3) = RGIOE_STATUS_ATTITUDE /\ diary_do y3 c = Some (y4, m4).
Proof.
  destruct case_aligning as (y & y3 & l & A & B & C & _ & _ & n & En & _).
  assert (Hr : o_rate (ao_rest turned_ao) <> 0) by (simpl; lra).
  assert (Fq : Forall quiet (steps (tilted 0 0 201) ++ fix_calls [lift 0])) by (apply Forall_app; split; [apply steps_quiet|apply fix_quiet]).
  destruct (level_split _ _ _ _ _ (started_unlevelled _ _ A Hr) Fq B C) as (cs1 & x & cs2 & y1 & l1 & y2 & m & l3 & Ec & H1 & S1 & U1 & H2 & S2 & H3).
  rewrite Ec in Fq. apply Forall_app in Fq. destruct Fq as [F1 F2]. inversion F2; subst.
  destruct (l_nav (d_align (y_dev y2))) as [n2|] eqn:E2; [|rewrite (nav_lost_run _ _ _ _ S2 H5 H3 C E2) in En; discriminate].
  destruct (level_result _ _ _ _ _ _ pva_zero U1 S1 H2 S2 E2) as (q & a & Hq & Ha).
  assert (Df : exists y4 m4, diary_do y3 (ATime (Some (case_sample 0 1))) = Some (y4, m4)).
  { destruct A as (y0 & j & n0 & Mo & Hi). cbn [diary_do] in Hi. destruct (api_do _ _) as [[d0 b]|] eqn:Ei; [|discriminate]. injection Hi as Ey.
    cbn [api_do] in Ei. destruct (api_init _ _ _ _) as [[d2 e]|] eqn:Ei2; [|discriminate]. injection Ei as <- _.
    assert (Dy : d2 = y_dev y) by (rewrite <- Ey; reflexivity). rewrite Dy in Ei2.
    assert (e = RGIOE_OK) as -> by (destruct n0; simpl in Ei2; congruence).
    destruct (history_defined _ _ _ _ _ ((steps (tilted 0 0 201) ++ fix_calls [lift 0]) ++ [ATime (Some (case_sample 0 1))]) Ei2) as (d1 & l0 & H).
    - rewrite Ec. apply Forall_app; split; [apply Forall_app; split; assumption|repeat constructor].
    - rewrite !PostTime.imus_app, fix_imus, app_nil_r, steps_imus, app_length. unfold tilted. rewrite repeat_length. cbn [imus length]. unfold int_max. lia.
    - destruct (api_run_diary _ y _ _ H)
        as (y4 & m4 & X & _).
      destruct (diary_run_app _ _ _ _ _ X) as (y5 & ma & mb & X1 & X2 & _). rewrite B in X1. injection X1 as <- <-.
      cbn [diary_run] in X2. destruct (diary_do y3 _) as [[y6 m6]|]; [eauto|discriminate]. }
  destruct Df as (y4 & m4 & H6).
  exists y, cs1, y1, l1, x, y2, m, (y_dev y2), q, a, cs2, y3, l3, (ATime (Some (case_sample 0 1))), y4, m4.
  split; [exact A|]. split; [exact Hr|]. split; [repeat (apply Forall_app; split; auto); repeat constructor|].
  repeat (split; [eassumption|]). exact H6.
Qed.
(** the place and the velocity in the record of a fix are those the first result of navigation reports, and its heading flag tells
    whether the next sample starts navigation *)
Theorem C114_start_partial : forall y g y1 t pos vn at_ v s st yw lv x y2 m2, d_status (y_dev y) = RGIOE_STATUS_ATTITUDE -> o_project (d_opt (y_dev y)) = false ->
  diary_do y (AGnss (Some g)) = Some (y1, [MAlign t (Some (pos, vn, at_)) v s st yw lv]) -> diary_do y1 (ATime (Some x)) = Some (y2, m2) ->
  t = g_gpst g /\
  (yw = false -> lv = true -> d_status (y_dev y2) = RGIOE_STATUS_ATTITUDE) /\
  (yw = true -> lv = true -> d_status (y_dev y2) = RGIOE_STATUS_NAVIGATION) /\
  forall p d q, d_status (y_dev y2) = RGIOE_STATUS_NAVIGATION -> api_do (y_dev y2) (AResult p) = Some (d, RPva (Some q)) ->
  pos = V (p_lat q * PI / 180) (p_lon q * PI / 180) (p_height q) /\ vn = p_vn q.
Proof. exact start_recorded. Qed.
Print Assumptions C114_start_partial.
(** the numbers and flags of that record: distance from the fix before, spread of the specific force, whether the unit stands still now,
    whether levelling and heading have been found *)
Theorem C114_flags_partial : forall y ao cs y1 l1 g y2 t nav v s st yw lv, started_aligning y ao -> Forall quiet cs -> diary_run y cs = Some (y1, l1) ->
  d_status (y_dev y1) <> RGIOE_STATUS_NAVIGATION -> diary_do y1 (AGnss (Some g)) = Some (y2, [MAlign t nav v s st yw lv]) ->
  (exists r p, late_fixes cs = r ++ [p] /\ v = travelled p g) /\ s = SmoothSpec.spread 30 (imus cs) /\ (st = true <-> static_now (imus cs)) /\
  (lv = true <-> found_static (imus cs)) /\ (yw = true <-> found_moving (o_align_vel (ao_rest ao)) (late_fixes (cs ++ [AGnss (Some g)]))).
Proof. exact fix_record. Qed.
Print Assumptions C114_flags_partial.
Example C114_flags_case : exists y y1 l y2 t nav v s st yw lv, started_aligning y turned_ao /\
  diary_run y (steps (tilted 0 0 201) ++ fix_calls [lift 0]) = Some (y1, l) /\ d_status (y_dev y1) <> RGIOE_STATUS_NAVIGATION /\
  diary_do y1 (AGnss (Some (lift 0))) = Some (y2, [MAlign t nav v s st yw lv]).
Proof.
  destruct case_aligning as (y & y1 & l & A & B & C & D & _). exists y, y1, l. cbn [diary_do]. unfold diary_gnss, align_fix_msgs. rewrite C, D.
  rewrite (proj2 (is_zero_false (vx (g_std (lift 0))))) by (cbn; lra). do 8 eexists. split; [exact A|]. split; [exact B|]. split; [congruence|reflexivity].
Qed.
(** the place is recorded in radians as a float: within 2^-23, which is 0.76 m on the equator *)
Theorem C114_place_near : forall rad, Rabs rad <= 4 -> Rabs (f_align_pos rad - rad) <= / 8388608.
Proof. exact align_pos_near. Qed.
Print Assumptions C114_place_near.
(** REFUTED to the decimetre: beyond two radians of longitude all places within 2^-23 of a float are recorded alike *)
Theorem C114_place_REFUTED : forall f x, b32 f -> 2 <= f -> 2 <= x -> Rabs (x - f) < / 8388608 -> f_align_pos x = f.
Proof. exact align_pos_coarse. Qed.
Print Assumptions C114_place_REFUTED.
(** two places 1.4 m apart on the equator *)
Example C114_place_case : exists x y, 6378137 * (y - x) > 1.4 /\ f_align_pos x = f_align_pos y.
Proof.
  assert (F : b32 3).
  { apply generic_format_FLT. exists (Float radix2 3 0); simpl; try lia. unfold F2R; simpl; lra. }
  exists (3 - 19 / 167772160), (3 + 19 / 167772160). split; [lra|].
  rewrite !(align_pos_coarse 3); auto; try lra; [apply Rabs_def1; lra|apply Rabs_def1; lra].
Qed.
(** a parked unit: the second fix at its place turns it by the mounting angle, and is recorded so *)
Example C114_case : exists y y' m d q a, d_status (y_dev y) = RGIOE_STATUS_ATTITUDE /\ vx (g_std (l_pre (d_align (y_dev y)))) <> 0 /\
  diary_do y (AGnss (Some (lift 0))) = Some (y', m) /\ api_do (y_dev y') (AResult pva_zero) = Some (d, RPva (Some q)) /\ p_atti q = Some a /\ vz a <> 0.
Proof.
  destruct case_aligning as (_ & y & _ & _ & _ & S & P & O & n & En & Ea & Ec).
  set (a := d_align (y_dev y)) in *.
  assert (Th : 0 <= o_align_vel (l_opt a)) by (rewrite O; simpl; lra).
  assert (Up : usable (l_pre a)) by (rewrite P; apply usable_lift; lra).
  assert (Pk : parked (l_pre a) [lift 0]) by (rewrite P; exact (parked_lift 1)).
  destruct (parked_turns [lift 0] a n 0 0 Th Up Pk En Ec Ea eq_refl eq_refl) as (_ & _ & _ & m2 & w2 & F4 & F5 & F6 & F7 & F8).
  cbn [feed_fixes length] in *. rewrite O in F7, F8.
  assert (U : 0 + INR 1 * vz (o_angle_bv turned_opt) = 1) by (simpl; ring). rewrite U in F8.
  destruct (diary_do y (AGnss (Some (lift 0)))) as [[y' m]|] eqn:E; [|discriminate E].
  assert (Dy : y_dev y' = d_with_align (y_dev y) (align_gnss a (lift 0))).
  { cbn [diary_do] in E. unfold diary_gnss, api_gnss in E. rewrite S in E. injection E as <- _. reflexivity. }
  destruct (result_attitude (y_dev y') pva_zero m2 w2) as (q & Eq & Eq2 & _).
  { rewrite Dy. exact S. } { rewrite Dy. exact F4. } { exact F6. }
  exists y, y', m, (y_dev y'), q, (vdiv (V 0 0 w2) deg). split; [exact S|]. split; [fold a; rewrite P; simpl; lra|]. split; [exact E|].
  split; [exact Eq|]. split; [exact Eq2|]. unfold vdiv. cbn [vz]. intros W.
  assert (Dg := deg_nonzero). assert (w2 = 0) as -> by (replace w2 with (w2 / deg * deg) by (field; exact Dg); rewrite W; ring).
  rewrite sin_0 in F8. assert (0 < sin 1) by (apply sin_gt_0; [lra|pose proof PI2_3_2; lra]). lra.
Qed.
(** the parked unit drives off: the second fix is recorded, the next sample starts navigation at that place *)
Example C114_start_case : exists y y1 pos vn at_ v s st lv y2 m2 d q, d_status (y_dev y) = RGIOE_STATUS_ATTITUDE /\ o_project (d_opt (y_dev y)) = false /\
  diary_do y (AGnss (Some (lift 2))) = Some (y1, [MAlign (g_gpst (lift 2)) (Some (pos, vn, at_)) v s st true lv]) /\
  diary_do y1 (ATime (Some (case_sample 0 1))) = Some (y2, m2) /\ d_status (y_dev y2) = RGIOE_STATUS_NAVIGATION /\
  api_do (y_dev y2) (AResult pva_zero) = Some (d, RPva (Some q)).
Proof.
  set (dz := Dev RGIOE_STATUS_INIT given_opt pva_zero (align_new vzero given_opt) None fusion_smooth).
  destruct (moved_case dz given_junk 1 (case_sample 0 1)) as (d0 & d2 & l & I & Ls & Up & Ug & Mv & Ti & H).
  assert (Mo : o_align_mode (case_opt 1 false) <> ALIGN_USE_GIVEN) by discriminate.
  assert (Hq : exists q, api_do d2 (AResult pva_zero) = Some (d2, RPva (Some q))).
  { assert (Hg : o_gt_corr (case_opt 1 false) <> 0) by (cbn; lra). assert (Ha : o_at_corr (case_opt 1 false) <> 0) by (cbn; lra).
    destruct (moved_start _ _ _ _ _ _ _ _ _ _ _ _ _ pva_zero I Mo Ls Hg Ha eq_refl Up Ug Mv Ti H) as (q & Hq & _). exists q. exact Hq. }
  destruct Hq as [q Hq].
  replace (steps (tilted 0 0 201) ++ fix_calls [lift 0; lift 2] ++ [ATime (Some (case_sample 0 1))]) with
    ((steps (tilted 0 0 201) ++ fix_calls [lift 0; lift 2]) ++ [ATime (Some (case_sample 0 1))]) in H by (rewrite <- app_assoc; reflexivity).
  rewrite api_run_app in H. destruct (api_run d0 (steps (tilted 0 0 201) ++ fix_calls [lift 0; lift 2])) as [[d4 l4]|] eqn:E4; [|discriminate].
  cbn [api_run] in H. destruct (api_do d4 (ATime (Some (case_sample 0 1)))) as [[d5 a5]|] eqn:E5; [|discriminate]. injection H as -> _.
  destruct (moved_all _ _ _ _ _ _ _ _ _ _ _ _ I Mo Ls Up Ug Mv Ti E4) as (S4 & O4 & _ & L4 & Y4 & m1 & m & N4 & _).
  rewrite api_run_app in E4. destruct (api_run d0 (steps (tilted 0 0 201))) as [[d1 l1]|] eqn:E1; [|discriminate].
  destruct (level_state _ _ _ _ _ _ _ _ _ _ I Mo Ls E1) as (S1 & O1 & _ & _ & _ & _ & P1 & _).
  change (fix_calls [lift 0; lift 2]) with [AGnss (Some (lift 0)); AGnss (Some (lift 2))] in E4. cbn [api_run api_do] in E4.
  unfold api_gnss in E4. rewrite S1 in E4. cbn [fst snd d_status d_with_align] in E4. rewrite S1 in E4. injection E4 as E4 _.
  set (d3 := d_with_align d1 (align_gnss (d_align d1) (lift 0))) in *.
  set (y := Diary d3 0 None None). set (y1 := Diary d4 0 None None).
  destruct (api_diary y1 _ _ _ E5) as (y2 & m2 & H5 & F5).
  assert (S3 : d_status d3 = RGIOE_STATUS_ATTITUDE) by exact S1.
  assert (P3 : is_zero (vx (g_std (l_pre (d_align d3)))) = false).
  { unfold d3. cbn [d_align d_with_align]. unfold align_gnss. rewrite P1. simpl (vx _). rewrite (proj2 (is_zero_true 0)) by reflexivity.
    cbn [l_pre]. apply is_zero_false. cbn. lra. }
  assert (H4 : diary_do y (AGnss (Some (lift 2))) = Some (y1, align_fix_msgs (d_align d3) (lift 2))).
  { cbn [diary_do]. unfold diary_gnss, api_gnss. cbn [y_dev y]. rewrite S3. cbn [fst]. unfold y1. rewrite <- E4. reflexivity. }
  assert (E6 : align_gnss (d_align d3) (lift 2) = d_align d4) by (rewrite <- E4; reflexivity).
  unfold align_fix_msgs in H4. rewrite P3 in H4. cbv zeta in H4. rewrite E6, N4, Y4 in H4.
  exists y, y1. do 11 eexists.
  split; [exact S3|]. split; [unfold d3; cbn [y_dev y d_opt d_with_align]; unfold d3; cbn [d_opt d_with_align]; rewrite O1; reflexivity|].
  split.
  { rewrite H4. do 3 f_equal. f_equal. rewrite <- E6. unfold align_gnss. rewrite P3. reflexivity. }
  split; [exact H5|]. rewrite F5. split; [|exact Hq].
  cbn [api_do] in E5. unfold api_time in E5. rewrite S4 in E5. destruct (align_imu (d_align d4) (case_sample 0 1)) as [b|] eqn:Eb; [|discriminate].
  assert (Lb : l_level b = true /\ l_yaw b = true).
  { unfold align_imu in Eb. destruct (smooth_update _ _); [|discriminate]. rewrite L4, Y4 in Eb. injection Eb as <-. auto. }
  destruct Lb as [-> ->] in E5. cbn [andb] in E5. injection E5 as <- _. reflexivity.
Qed.
