(** The C interface: C12 to C18, C68, C69, C74.
    A history is a list of calls of one device ([api_run]); it yields the device and the answers the caller got. [None] means
    undefined behaviour of the C++ program. [d_fusion = None] means that the filter holds a NaN or an infinity. *)
From Coq Require Import Reals ZArith List Lia Lra.
From mathcomp Require Import ssreflect.
From Verif Require Import RealMath EarthModel ConvertModel ConvertSpec SmoothModel SmoothSpec InsModel InsSpec InsRest InsRest2 FusionBase
  KalmanModel FusionModel FusionSpec FusionFeed FusionCases AlignModel ApiModel ApiSpec ApiProofs ApiFresh ApiCases ApiPosStd ApiRest.
Import ListNotations.
Local Open Scope R_scope.

(** ** C12 *)
Theorem C12_status_forward : forall d j o n d0 cs1 cs2 d1 d2 l1 l2, api_init d j o n = Some (d0, RGIOE_OK) ->
  Forall quiet (cs1 ++ cs2) -> api_run d0 cs1 = Some (d1, l1) -> api_run d1 cs2 = Some (d2, l2) ->
  (0 <= rank (d_status d1) <= rank (d_status d2) /\ rank (d_status d2) <= 3)%Z.
Proof. exact status_history. Qed.
Theorem C12_never_error : forall d j o n d0 cs d1 l s, api_init d j o n = Some (d0, RGIOE_OK) ->
  Forall quiet cs -> api_run d0 cs = Some (d1, l) -> In (RStatus s) l -> s <> RGIOE_STATUS_ERROR.
Proof. exact status_answers. Qed.
Theorem C12_no_undefined_behaviour : forall d j o n d0 cs, api_init d j o n = Some (d0, RGIOE_OK) -> Forall quiet cs ->
  (Z.of_nat (length (imus cs)) <= int_max)%Z -> exists d1 l, api_run d0 cs = Some (d1, l).
Proof. exact history_defined. Qed.
Print Assumptions C12_status_forward.
Print Assumptions C12_never_error.
Print Assumptions C12_no_undefined_behaviour.
(** a history that goes through all statuses *)
Example C12_case : forall d j ao n d0, api_init d j (Some ao) n = Some (d0, RGIOE_OK) ->
  o_align_mode (ao_rest ao) <> ALIGN_USE_GIVEN -> o_align_vel (ao_rest ao) = 1 ->
  exists d1 l, api_run d0 (moved_first ++ then_still) = Some (d1, l) /\ d_status d0 = RGIOE_STATUS_INIT /\ d_status d1 = RGIOE_STATUS_NAVIGATION.
Proof.
  intros d j ao n d0 I M A. destruct (order_not_kept _ _ _ _ _ I M A) as (d1 & l & E & S & _).
  destruct (init_ok _ _ _ _ _ I) as (S0 & _). eauto.
Qed.

(** ** C13: what holds. NAVIGATION is entered by an IMU sample, with a given state or after the unit was found static and
    moving *)
Theorem C13_reason_partial : forall d j ao n d0 cs d1 l1 c d2 a, api_init d j (Some ao) n = Some (d0, RGIOE_OK) ->
  Forall quiet cs -> quiet c -> api_run d0 cs = Some (d1, l1) -> d_status d1 <> RGIOE_STATUS_NAVIGATION ->
  api_do d1 c = Some (d2, a) -> d_status d2 = RGIOE_STATUS_NAVIGATION ->
  (exists x, c = ATime (Some x)) /\
  ((o_align_mode (ao_rest ao) = ALIGN_USE_GIVEN /\ n <> None) \/
   (found_static (imus cs) /\ found_moving (o_align_vel (ao_rest ao)) (late_fixes cs))).
Proof. exact navigation_reason. Qed.
Theorem C13_reached_partial : forall d j ao n d0 cs d1 l1 x y d2 l2, api_init d j (Some ao) n = Some (d0, RGIOE_OK) ->
  Forall quiet cs -> o_align_mode (ao_rest ao) <> ALIGN_USE_GIVEN -> api_run d0 cs = Some (d1, l1) ->
  found_static (imus cs) -> found_moving (o_align_vel (ao_rest ao)) (late_fixes cs) ->
  api_run d1 [ATime (Some x); ATime (Some y)] = Some (d2, l2) -> d_status d2 = RGIOE_STATUS_NAVIGATION.
Proof. exact navigation_reached. Qed.
(** refuted: the order. The unit is lifted by 2 m (the displacement that provides the heading is vertical) before it was
    ever found static, then it rests without any further fix, and the status becomes NAVIGATION *)
Theorem C13_heading_after_levelling_refuted : forall d j ao n d0, api_init d j (Some ao) n = Some (d0, RGIOE_OK) ->
  o_align_mode (ao_rest ao) <> ALIGN_USE_GIVEN -> o_align_vel (ao_rest ao) = 1 ->
  exists d1 l, api_run d0 (moved_first ++ then_still) = Some (d1, l) /\ d_status d1 = RGIOE_STATUS_NAVIGATION /\
    found_moving 1 (late_fixes moved_first) /\ ~ found_static (imus moved_first) /\ fixes then_still = [].
Proof. exact order_not_kept. Qed.
Print Assumptions C13_reason_partial.
Print Assumptions C13_reached_partial.
Print Assumptions C13_heading_after_levelling_refuted.
Example C13_case : forall d j v, exists d0, api_init d j (Some (AOpt true (case_opt v false))) None = Some (d0, RGIOE_OK) /\
  o_align_mode (case_opt v false) <> ALIGN_USE_GIVEN /\ o_align_vel (case_opt v false) = 1.
Proof. intros. eexists. split; [reflexivity|]. split; [discriminate|reflexivity]. Qed.

(** ** C14 *)
Theorem C14_null_sample : forall d, api_do d (ATime None) = Some (d, RCode RGIOE_NULL_INPUT).
Proof. exact null_time. Qed.
Theorem C14_null_fix : forall d, api_do d (AGnss None) = Some (d, RCode RGIOE_NULL_INPUT).
Proof. exact null_gnss. Qed.
Print Assumptions C14_null_sample.
Print Assumptions C14_null_fix.

(** ** C15 *)
Theorem C15_fixes_keep_status : forall d g d' a, api_do d (AGnss g) = Some (d', a) -> d_status d' = d_status d.
Proof. exact gnss_keeps_status. Qed.
Theorem C15_nothing_before_first_sample : forall d j o n d0 cs, api_init d j o n = Some (d0, RGIOE_OK) -> Forall quiet cs -> imus cs = [] ->
  exists l, api_run d0 cs = Some (d0, l).
Proof. exact waits_for_sample. Qed.
Print Assumptions C15_fixes_keep_status.
Print Assumptions C15_nothing_before_first_sample.
Example C15_case : imus [AGnss (Some (lift 0)); AStatus; AGnss (Some (lift 2)); ATime None] = [] /\
  Forall quiet [AGnss (Some (lift 0)); AStatus; AGnss (Some (lift 2)); ATime None].
Proof. split; [reflexivity|]. repeat constructor. Qed.

(** ** C16 *)
Theorem C16_no_side_effects : forall d c, reads c -> exists a, api_do d c = Some (d, a).
Proof. exact reads_only. Qed.
(** leaving a read-out out changes no other answer *)
Theorem C16_others_unchanged : forall d0 cs1 c cs2 d1 l1 a, api_run d0 cs1 = Some (d1, l1) -> api_do d1 c = Some (d1, a) ->
  api_run d0 (cs1 ++ c :: cs2) =
  match api_run d1 cs2 with Some (d2, l2) => Some (d2, l1 ++ a :: l2) | None => None end.
Proof. exact run_without. Qed.
Theorem C16_gated : forall d p, d_status d <> RGIOE_STATUS_NAVIGATION -> exists q, api_result d p = Some q /\
  p_lat q = p_lat p /\ p_lon q = p_lon p /\ p_height q = p_height p /\ p_pos_std q = p_pos_std p /\
  p_vn q = p_vn p /\ p_vn_std q = p_vn_std p.
Proof. exact result_gated. Qed.
Theorem C16_navigation : forall d p s, d_status d = RGIOE_STATUS_NAVIGATION -> d_fusion d = Some s -> o_project (f_opt s) = false ->
  exists q, api_result d p = Some q /\
  p_lat q * (PI / 180) = vx (n_pos (s_nav (f_ins s))) /\ p_lon q * (PI / 180) = vy (n_pos (s_nav (f_ins s))) /\
  p_height q = vz (n_pos (s_nav (f_ins s))) /\ p_vn q = n_vn (s_nav (f_ins s)) /\
  (forall r t h, n_atti (s_nav (f_ins s)) = Eu (Fin r) (Fin t) h -> exists v, p_atti q = Some v /\
     vx v * (PI / 180) = r /\ vy v * (PI / 180) = t /\ vz v * (PI / 180) = h) /\
  p_gpst q = n_gpst (s_nav (f_ins s)).
Proof. exact result_navigation. Qed.
Print Assumptions C16_no_side_effects.
Print Assumptions C16_others_unchanged.
Print Assumptions C16_gated.
Print Assumptions C16_navigation.
(** a device in NAVIGATION with finite numbers *)
Example C16_case : forall d t, exists d0 d1 u, api_init d given_junk (Some given_ao) (Some pva_zero) = Some (d0, RGIOE_OK) /\
  api_do d0 (ATime (Some (case_sample 0 t))) = Some (d1, RCode RGIOE_OK) /\ d_fusion d1 = Some u.
Proof. exact given_first_sample. Qed.

(** ** C17: refuted. rgioe_get_pos answers with the accuracy of the attitude *)
Theorem C17_attitude_accuracy_refuted : forall d, snd (api_pos d) = snd (api_atti d).
Proof. exact get_pos_std. Qed.
(** a unit whose attitude is known and whose position is not: zero, although rgioe_get_result reports at least the initial
    position accuracy *)
Theorem C17_zero_refuted : forall d j ao p d0 x d1 a t, api_init d j (Some ao) (Some p) = Some (d0, RGIOE_OK) ->
  let o := ao_rest ao in o_align_mode o = ALIGN_USE_GIVEN -> unconstrained o -> o_project o = false ->
  o_att_std o = vzero -> o_gb_std o = vzero -> o_arw o = 0 ->
  0 < vx (o_pos_std o) -> 0 < vy (o_pos_std o) -> 0 < vz (o_pos_std o) ->
  api_do d0 (ATime (Some x)) = Some (d1, a) -> d_fusion d1 = Some t ->
  (exists v, api_do d1 APos = Some (d1, RTriple (Some v) (Some vzero))) /\
  forall b, exists q s, api_do d1 (AResult b) = Some (d1, RPva (Some q)) /\ p_pos_std q = Some s /\
    vx (o_pos_std o) <= vx s /\ vy (o_pos_std o) <= vy s /\ vz (o_pos_std o) <= vz s.
Proof. exact get_pos_zero. Qed.
Print Assumptions C17_attitude_accuracy_refuted.
Print Assumptions C17_zero_refuted.
Example C17_case : forall d t, exists d0 d1 u, api_init d given_junk (Some given_ao) (Some pva_zero) = Some (d0, RGIOE_OK) /\
  api_do d0 (ATime (Some (case_sample 0 t))) = Some (d1, RCode RGIOE_OK) /\ d_fusion d1 = Some u /\
  unconstrained given_opt /\ o_align_mode given_opt = ALIGN_USE_GIVEN /\ 0 < vx (o_pos_std given_opt).
Proof.
  intros d t. destruct (given_first_sample d t) as (d0 & d1 & u & A & B & C). exists d0, d1, u. repeat split; auto. simpl; lra.
Qed.

(** ** C18: refuted. A NULL option pointer is undefined behaviour, and a rejected initialisation leaves the old status *)
Theorem C18_null_options_refuted : forall d j n, api_init d j None n = None.
Proof. exact init_null. Qed.
Theorem C18_old_status_refuted : forall d j ao n d', api_init d j (Some ao) n = Some (d', RGIOE_FAULT_CONFIG) -> d_status d' = d_status d.
Proof. exact init_fault_status. Qed.
(** and forgets the state that was given before: a navigation that then starts, starts at latitude and longitude zero *)
Theorem C18_zero_state_refuted : forall d j ao n d', api_init d j (Some ao) n = Some (d', RGIOE_FAULT_CONFIG) ->
  d_given d' = Pva 0 0 0 0 0 (Some (V 0 0 0)) (V 0 0 0) (Some (V 0 0 0)) (Some (V 0 0 0)) (Some (V 0 0 0)) 0 0 (V 0 0 0) (V 0 0 0) (V 0 0 0) (V 0 0 0) 0.
Proof. intros d j ao n d' H. apply init_fault in H. destruct H as (_ & _ & ->). reflexivity. Qed.
Print Assumptions C18_zero_state_refuted.
(** what holds *)
Theorem C18_outcome_partial : forall d j ao n, exists d' e, api_init d j (Some ao) n = Some (d', e) /\ (e = RGIOE_OK \/ e = RGIOE_FAULT_CONFIG) /\
  (e = RGIOE_OK -> d_status d' = RGIOE_STATUS_INIT) /\
  (e = RGIOE_FAULT_CONFIG <-> o_align_mode (ao_rest ao) = ALIGN_USE_GIVEN /\ n = None).
Proof. exact init_total. Qed.
(** equal answers whatever the device did before and whatever uninitialised memory holds, but for the last velocity of the
    alignment, which is never initialised; for callers that read the solution only in NAVIGATION *)
Theorem C18_fresh_partial : forall d1 d2 j1 j2 ao n e1 e2 cs, api_init d1 j1 (Some ao) n = Some (e1, RGIOE_OK) ->
  api_init d2 j2 (Some ao) n = Some (e2, RGIOE_OK) ->
  o_align_mode (ao_rest ao) = ALIGN_USE_GIVEN \/ j_vpre j1 = j_vpre j2 -> Forall quiet cs -> reads_late e1 cs ->
  omap snd (api_run e1 cs) = omap snd (api_run e2 cs).
Proof. exact fresh_start. Qed.
Print Assumptions C18_null_options_refuted.
Print Assumptions C18_old_status_refuted.
Print Assumptions C18_outcome_partial.
Print Assumptions C18_fresh_partial.
Example C18_case : forall d j, exists d', api_init d j (Some given_ao) None = Some (d', RGIOE_FAULT_CONFIG).
Proof. intros. eexists. reflexivity. Qed.

(** ** C68: calls of two devices in any order; the gravity variable of the Earth singleton is shared between them *)
Theorem C68_two_devices : forall d1 d2 g cs l, two_run d1 d2 g cs = Some l ->
  omap snd (api_run d1 (of_device true cs)) = Some (of_device true l) /\
  omap snd (api_run d2 (of_device false cs)) = Some (of_device false l).
Proof. exact two_devices. Qed.
Print Assumptions C68_two_devices.
Example C68_case : forall d1 d2 g, exists l, two_run d1 d2 g [(true, AInit given_junk (Some given_ao) (Some pva_zero)); (false, AStatus); (true, AStatus)] = Some l /\
  of_device true l = [RCode RGIOE_OK; RStatus RGIOE_STATUS_INIT].
Proof. intros. eexists. split; reflexivity. Qed.

(** ** C69: from initialisation with a given state to the read-out, for any number of samples *)
Theorem C69_given_state_kept : forall d j ao p e d0 ts d1 l, api_init d j (Some ao) (Some p) = Some (d0, RGIOE_OK) -> let o := ao_rest ao in
  o_align_mode o = ALIGN_USE_GIVEN -> p_atti p = Some e -> p_vn p = vzero -> clean o -> 0 < o_rate o ->
  o_lb_wheel o = vzero -> o_zupta o = false -> o_project o = false ->
  let lat := p_lat p * (PI / 180) in let lon := p_lon p * (PI / 180) in let h := p_height p in
  place_ok lat lon h -> ts <> [] ->
  let C := euler_to_dcm (vscale (PI / 180) e) in
  api_run d0 (map (fun t => ATime (Some (rest_sample C lat h (o_rate o) t))) ts) = Some (d1, l) -> d_fusion d1 <> None ->
  d_status d1 = RGIOE_STATUS_NAVIGATION /\
  (exists s, api_do d1 APos = Some (d1, RTriple (Some (V (p_lat p) (p_lon p) (p_height p))) s)) /\
  (exists s, api_do d1 AVel = Some (d1, RTriple (Some vzero) s)).
Proof. exact given_stays. Qed.
(** the numbers stay finite when the constraints are switched off *)
Theorem C69_finite : forall d j ao p e d0 ts d1 l, api_init d j (Some ao) (Some p) = Some (d0, RGIOE_OK) -> let o := ao_rest ao in
  o_align_mode o = ALIGN_USE_GIVEN -> p_atti p = Some e -> p_vn p = vzero -> clean o -> 0 < o_rate o ->
  o_gt_corr o <> 0 -> o_at_corr o <> 0 -> o_zupt o = false -> o_nhc o = false ->
  let lat := p_lat p * (PI / 180) in let lon := p_lon p * (PI / 180) in let h := p_height p in
  place_ok lat lon h -> ts <> [] -> (Z.of_nat (length ts) <= int_max)%Z ->
  let C := euler_to_dcm (vscale (PI / 180) e) in
  api_run d0 (map (fun t => ATime (Some (rest_sample C lat h (o_rate o) t))) ts) = Some (d1, l) -> d_fusion d1 <> None.
Proof. exact given_finite. Qed.
Print Assumptions C69_given_state_kept.
Print Assumptions C69_finite.
Example C69_case : p_atti pva_zero = Some vzero /\ clean given_opt /\ 0 < o_rate given_opt /\ o_lb_wheel given_opt = vzero /\
  o_zupta given_opt = false /\ o_zupt given_opt = false /\ o_nhc given_opt = false /\ place_ok (p_lat pva_zero * (PI / 180)) (p_lon pva_zero * (PI / 180)) (p_height pva_zero).
Proof.
  repeat split; simpl; try lra; assert (P := PI_RGT_0); lra.
Qed.

(** ** C74: refuted. The option enable_gnss is never read: switched off, the heading still comes from fixes *)
Theorem C74_gnss_off_refuted : forall d j o n d0, api_init d j (Some (AOpt false o)) n = Some (d0, RGIOE_OK) ->
  o_align_mode o <> ALIGN_USE_GIVEN -> o_align_vel o = 1 ->
  exists d1 l, api_run d0 (moved_first ++ then_still) = Some (d1, l) /\ d_status d1 = RGIOE_STATUS_NAVIGATION /\
    found_moving 1 (late_fixes moved_first) /\ ~ found_static (imus moved_first) /\ fixes then_still = [].
Proof. exact (fun d j o n d0 => order_not_kept d j (AOpt false o) n d0). Qed.
(** the option changes nothing *)
Theorem C74_no_effect_refuted : forall d j b1 b2 o n, api_init d j (Some (AOpt b1 o)) n = api_init d j (Some (AOpt b2 o)) n.
Proof. exact gnss_switch. Qed.
Print Assumptions C74_gnss_off_refuted.
Print Assumptions C74_no_effect_refuted.
Example C74_case : forall d j v, exists d0, api_init d j (Some (AOpt false (case_opt v false))) None = Some (d0, RGIOE_OK).
Proof. intros. eexists. reflexivity. Qed.
