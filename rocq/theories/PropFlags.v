(** The sensor flags of a result: C84. Histories are lists of calls to the filter in any order. *)
From Coq Require Import Reals ZArith List.
From mathcomp Require Import all_ssreflect.
From Verif Require Import RealMath InsModel SmoothModel FusionBase FusionModel FusionSpec ApiModel FusionCases FlagsSpec FlagsProofs.

(** ** C84: the GNSS flag says whether the last fix of the whole history was accepted, not whether one was used for this result *)
Theorem C84_gnss_flag_partial : forall s cs t g, run_calls s cs = Some t -> last_fix cs None = Some g -> sensor t 1 = fix_mode (g_mode g).
Proof. move=> s cs t g H. rewrite -mode_rule. exact: (gnss_flag cs s t None H). Qed.
Print Assumptions C84_gnss_flag_partial.
Theorem C84_gnss_flag_before : forall s cs t, run_calls s cs = Some t -> last_fix cs None = None -> sensor t 1 = sensor s 1.
Proof. move=> s cs. exact: gnss_flag_none. Qed.
Print Assumptions C84_gnss_flag_before.
(** REFUTED: after an accepted fix the flag stays set, whatever number of samples without a fix follows *)
Theorem C84_not_cleared : forall s g xs t, fix_mode (g_mode g) = true ->
  run_calls s (CallGnss g :: List.map CallImu xs) = Some t -> sensor t 1 = true.
Proof. by move=> s g xs t <-; rewrite -mode_rule; exact: fix_flag_stays. Qed.
Print Assumptions C84_not_cleared.
Example C84_not_cleared_case : forall t, fix_mode (g_mode (case_fix 100)) = true /\
  exists u, run_calls (case_start 1 false (V 1 1 1)) [:: CallGnss (case_fix 100); CallImu (case_sample 50 t)] = Some u /\ sensor u 1 = true.
Proof. move=> t. split=> //. exact: stale_case. Qed.
(** the odometer flag is never cleared *)
Theorem C84_odometer_flag : forall s cs t, run_calls s cs = Some t -> sensor t 2 = sensor s 2 || has_speed cs.
Proof. move=> s cs. exact: odo_flag. Qed.
Print Assumptions C84_odometer_flag.
(** REFUTED: after a start from a given state the IMU flag is the one of the given state, however many samples are used *)
Theorem C84_imu_flag : forall s p o n t cs u, given_nav p o = Some n -> initialize s n o = Some t -> run_calls t cs = Some u ->
  sensor u 0 = Nat.testbit (p_sensors p) 0.
Proof. exact given_flag. Qed.
Print Assumptions C84_imu_flag.
Example C84_imu_flag_case : forall std ts, (Z.of_nat (length ts) <= int_max)%Z -> exists u,
  run_calls (case_start 0 true std) (List.map (fun t => CallImu (case_sample 0 t)) ts) = Some u /\ sensor u 0 = Nat.testbit (n_sensors (case_nav std)) 0.
Proof.
  move=> std ts H. case: (case_history std ts H) => u E _. exists u. split=> //.
  rewrite (imu_flag _ _ _ E) (init_flags _ _ _ _ 0 (case_init 0 true std)) //.
Qed.
(** REFUTED: every eighth result repeats the zero velocity flag of the result before, whether the unit stands or not *)
Theorem C84_zero_velocity_flag : forall s x t, time_update s x = Some t -> (u32 (f_idx s + 1) mod 8 = 0)%Z -> sensor t 3 = sensor s 3.
Proof. exact zupt_stale. Qed.
Print Assumptions C84_zero_velocity_flag.
(** the mode reported with a result is that of the last fix, or INVALID if that was rejected *)
Theorem C84_mode_at_fix : forall s g t, gnss_update s g = Some t ->
  n_gnss_mode (s_nav (f_ins t)) = if fix_mode (g_mode g) then Z.to_nat (g_mode g) else MODE_INVALID.
Proof. move=> s g t H. rewrite -mode_rule. exact: (proj2 (fix_flag s g t H)). Qed.
Print Assumptions C84_mode_at_fix.
