(** Property theorems C102-C104: machine arithmetic (IEEE-754 doubles and floats, round to nearest).
    Models: FloatOutageModel, FloatTimeModel, FloatOutModel.  Specifications: FloatSpec, FloatTimeSpec. *)
From Coq Require Import Reals ZArith List Bool Lia Lra.
From Flocq Require Import Core.
From Verif Require Import FloatSpec FloatOutageModel FloatOutageProofs FloatTimeModel FloatTimeSpec FloatTimeProofs
  FloatOutModel FloatOutProofs.
Import ListNotations.
Open Scope R_scope.

(** * C102  outage windows in machine arithmetic: for floats of ordinary size no sum is rounded *)
Theorem C102_exact : forall start stop len step,
  b32 start -> (start = 0 \/ / 1024 <= start) -> b32 len -> (len = 0 \/ / 1024 <= len) ->
  b32 step -> / 1024 <= step -> start <= stop -> len <= step -> stop + step <= 1048576 ->
  exists fuel o, fnew_outage fuel start stop len step = Some o /\
    forall t, fis_outage o t = true <->
      exists k : nat, let s := start + INR k * step in s < stop /\ s <= t /\ t <= s + len.
Proof.
  intros start stop len step Fa Ra Fl Rl Fs Rs A L B.
  apply (outage_exact (-33)); try lia; try (apply small_mult; split; auto); auto.
  - destruct Ra; lra.
  - destruct Rl; lra.
  - lra.
Qed.
Print Assumptions C102_exact.
Lemma b32_int n : (0 <= n < 16777216)%Z -> b32 (IZR n).
Proof.
  intro H. apply generic_format_FLT. exists (Float radix2 n 0); cbn; [unfold F2R; cbn; ring| |lia].
  change (Z.pow_pos 2 24) with 16777216%Z. lia.
Qed.
Example C102_case : exists fuel o, fnew_outage fuel 456300 457500 60 120 = Some o /\
  fis_outage o 456420 = true /\ fis_outage o 456375 = false.
Proof.
  destruct (C102_exact 456300 457500 60 120) as [f [o [E H]]];
    try (apply b32_int; lia); try lra.
  exists f, o. refine (conj E (conj _ _)).
  - apply H. exists 1%nat. cbn. lra.
  - destruct (fis_outage o 456375) eqn:X; [|reflexivity]. exfalso. apply H in X.
    destruct X as [k [_ [P Q]]]. destruct k as [|k]; [cbn in Q; lra|]. rewrite S_INR in P. pose proof (pos_INR k). lra.
Qed.
(** however many windows: two windows never run into each other and the last start is still exact *)
Theorem C102_no_drift : forall e start stop len step, (-1074 <= e)%Z ->
  multiple_of e start -> multiple_of e step -> multiple_of e len ->
  0 <= start -> start <= stop -> 0 <= len -> len <= step -> 0 < step -> stop + step <= bpow radix2 (e + 53) ->
  exists fuel o, fnew_outage fuel start stop len step = Some o /\
    forall t, fis_outage o t = true <->
      exists k : nat, let s := start + INR k * step in s < stop /\ s <= t /\ t <= s + len.
Proof. exact outage_exact. Qed.
Print Assumptions C102_no_drift.
Example C102_no_drift_case : exists fuel o, fnew_outage fuel 0 (1048576 - 1 / 8) (1 / 16) (1 / 8) = Some o /\
  fis_outage o (1000000 + 1 / 32) = true.
Proof.
  assert (M : forall n, multiple_of (-33) (IZR n / 16)).
  { intro n. exists (n * 2 ^ 29)%Z. rewrite mult_IZR.
    change (bpow radix2 (-33)) with (/ 8589934592). change (IZR (2 ^ 29)) with 536870912. field. }
  destruct (C102_no_drift (-33) 0 (1048576 - 1 / 8) (1 / 16) (1 / 8)) as [f [o [E H]]]; try lia; try lra.
  - replace 0 with (0 / 16) by field. apply M.
  - replace (1 / 8) with (2 / 16) by field. apply M.
  - apply M.
  - change (bpow radix2 (-33 + 53)) with 1048576. lra.
  - exists f, o. split; [exact E|]. apply H. exists (Z.to_nat 8000000). cbv zeta.
    rewrite INR_IZR_INZ, Z2Nat.id by lia. lra.
Qed.
(** a plan that makes no sense (it stops before it starts, lasts a negative time, or its windows overlap) has no outage *)
Theorem C102_senseless_plan : forall start stop len step, (stop < start /\ 0 < stop) \/ len < 0 \/ step < len ->
  exists o, fnew_outage 0 start stop len step = Some o /\ forall t, fis_outage o t = false.
Proof.
  intros start stop len step H. unfold fnew_outage.
  assert (E : (ltb stop start && ltb 0 stop || ltb len 0 || ltb step len)%bool = true).
  { unfold ltb. repeat destruct Rlt_dec; simpl; try reflexivity; lra. }
  rewrite E. eexists. split; [reflexivity|]. intro t. reflexivity.
Qed.
Print Assumptions C102_senseless_plan.
Example C102_senseless_case : (457500 < 456300 /\ 0 < 457500) \/ 60 < 0 \/ 50 < 60.
Proof. right. right. lra. Qed.
(** REFUTED: the construction of a plan with a positive step ends.  When the step is below the
    resolution of the start time the sum does not move and the constructor loops for ever. *)
Theorem C102_positive_step_ends_refuted : exists start stop len step,
  b32 start /\ b32 stop /\ b32 len /\ b32 step /\ 0 < start < stop /\ 0 < len <= step /\
  forall fuel, fnew_outage fuel start stop len step = None.
Proof.
  assert (P : b32 (bpow radix2 (-40))) by (apply generic_format_FLT_bpow; [reflexivity|lia]).
  assert (Q : 0 < bpow radix2 (-40)) by apply bpow_gt_0.
  exists 524288, 524290, (bpow radix2 (-40)), (bpow radix2 (-40)).
  refine (conj _ (conj _ (conj P (conj P (conj _ (conj _ _)))))); try (apply b32_int; lia); try lra.
  apply outage_fhang; try lra; [apply b32_int; lia|].
  change 524288 with (bpow radix2 19). rewrite <- bpow_plus. apply bpow_le. lia.
Qed.
Print Assumptions C102_positive_step_ends_refuted.
Theorem C102_small_step_hangs : forall start stop len step, b32 start -> 0 < start -> start < stop ->
  0 <= len -> len <= step -> step <= start * bpow radix2 (-54) ->
  forall fuel, fnew_outage fuel start stop len step = None.
Proof. exact outage_fhang. Qed.
Print Assumptions C102_small_step_hangs.

(** * C103  time statistics in machine arithmetic *)
Theorem C103_gap_exact : forall t0 ts t, b64 t0 -> 0 < t0 -> steady t0 (ts ++ [t]) ->
  fc_delta (fcheck_run (t0 :: ts ++ [t])) = t - last ts t0.
Proof.
  intros t0 ts t F P H. apply steady_snoc in H. destruct H as [Hs [Ft Ht]].
  change (t0 :: ts ++ [t]) with ((t0 :: ts) ++ [t]). rewrite run_snoc. unfold fcheck_update. cbn [fc_delta].
  destruct (steady_last ts t0 F P Hs) as [Fl Pl].
  assert (E : fc_last (fcheck_run (t0 :: ts)) = last ts t0).
  { destruct ts as [|a r] using rev_ind; [reflexivity|].
    change (t0 :: r ++ [a]) with ((t0 :: r) ++ [a]). rewrite run_snoc, last_last. reflexivity. }
  rewrite E. destruct (ltbP 0 (last ts t0)) as [_|C]; [|lra]. apply diff_exact; auto.
Qed.
Print Assumptions C103_gap_exact.
Theorem C103_max_and_mean : forall t0 ts D, b64 t0 -> 0 < t0 -> steady t0 ts ->
  Forall (fun g => Rabs g <= D) (gaps t0 ts) -> bpow radix2 (-1022) <= D ->
  (Z.of_nat (S (length ts)) < 2 ^ 32)%Z ->
  let c := fcheck_run (t0 :: ts) in let n := INR (S (length ts)) in
  fc_max c = largest (gaps t0 ts) /\
  Rabs (fc_avg c - sum (gaps t0 ts) / n) <= 4 * (n + 1) * / 2 ^ 53 * D.
Proof. intros t0 ts D A B C E F G c n. apply (check_mean t0 ts D A B C E F G). Qed.
Print Assumptions C103_max_and_mean.
Lemma b64_int n : (0 <= n < 9007199254740992)%Z -> b64 (IZR n).
Proof.
  intro H. apply generic_format_FLT. exists (Float radix2 n 0); cbn; [unfold F2R; cbn; ring| |lia].
  change (Z.pow_pos 2 53) with 9007199254740992%Z. lia.
Qed.
Example C103_case : fc_max (fcheck_run [456300; 456301; 456303]) = 2.
Proof.
  destruct (C103_max_and_mean 456300 [456301; 456303] 2) as [E _].
  - apply b64_int; lia.
  - lra.
  - cbn. repeat split; try (apply b64_int; lia); lra.
  - cbn [gaps]. apply Forall_cons; [apply Rabs_le; lra|]. apply Forall_cons; [apply Rabs_le; lra|]. apply Forall_nil.
  - apply Rle_trans with (bpow radix2 1); [apply bpow_le; lia|cbn; lra].
  - cbn. lia.
  - rewrite E. unfold largest. cbn. unfold Rmax. repeat destruct (Rle_dec _ _); lra.
Qed.
(** the delay of a fix behind its arrival is exact as well *)
Theorem C103_gnss_delay_exact : forall time gpst, b64 time -> b64 gpst -> gpst / 2 <= time <= 2 * gpst ->
  fgnss_delay time gpst = time - gpst.
Proof. intros. unfold fgnss_delay. apply diff_exact; auto. Qed.
Print Assumptions C103_gnss_delay_exact.

(** * C104  precision of what goes in and out *)
(** a given latitude or longitude in degrees comes back, converted to radians and back, to 2^-52
    relative: below five nanometres on the ground for any angle up to 180 degrees *)
Theorem C104_given_angle_returned : forall deg x, / 1024 <= deg -> deg <= 1 ->
  (x = 0 \/ bpow radix2 (-500) <= Rabs x) ->
  Rabs (f_out_angle deg (f_in_angle deg x) - x) <= Rabs x * (/ 2 ^ 52 + / 2 ^ 106).
Proof. intros deg x H. apply round_trip. exact H. Qed.
Print Assumptions C104_given_angle_returned.
Example C104_case : Rabs (f_out_angle (rn (1 / 57)) (f_in_angle (rn (1 / 57)) 30.5) - 30.5) <= 1 / 10 ^ 14.
Proof.
  assert (E : Rabs (rn (1 / 57) - 1 / 57) <= uu * 1).
  { apply rn_err; [rewrite Rabs_pos_eq by lra; lra|]. apply (bpow_le radix2 (-1022) 0). lia. }
  apply abs_of in E. rewrite uu_val in E.
  eapply Rle_trans; [apply C104_given_angle_returned; try lra|].
  - right. rewrite Rabs_pos_eq by lra. apply Rle_trans with (bpow radix2 0); [apply bpow_le; lia|cbn; lra].
  - rewrite Rabs_pos_eq by lra. lra.
Qed.
(** velocities below 128 m/s are returned within 2^-18 m/s (4 micrometres per second) *)
Theorem C104_velocity_precision : forall v, Rabs v <= 128 -> Rabs (f_get_vel v - v) <= / 2 ^ 18.
Proof.
  intros v H. unfold f_get_vel. eapply Rle_trans; [apply (rn32_err 7); [lia|exact H]|].
  change (bpow radix2 (7 - 25)) with (/ 262144). lra.
Qed.
Print Assumptions C104_velocity_precision.
(** attitude angles (up to 255 degrees) are returned within 7.7e-6 degrees *)
Theorem C104_attitude_precision : forall deg a, Rabs (a / deg) <= 255 ->
  Rabs (f_get_atti deg a - a / deg) <= / 2 ^ 17 + / 2 ^ 45.
Proof.
  intros deg a H. unfold f_get_atti.
  assert (E : Rabs (f_out_angle deg a - a / deg) <= uu * 256).
  { apply rn_err; [lra|]. apply Rle_trans with (bpow radix2 0); [apply bpow_le; lia|cbn; lra]. }
  rewrite uu_val in E.
  assert (B : Rabs (f_out_angle deg a) <= bpow radix2 8).
  { change (bpow radix2 8) with 256. apply abs_of in E. apply abs_of in H. apply abs_to. lra. }
  apply (rn32_err 8) in B; [|lia]. change (bpow radix2 (8 - 25)) with (/ 131072) in B.
  apply abs_of in E. apply abs_of in B. apply abs_to. lra.
Qed.
Print Assumptions C104_attitude_precision.
(** heights below 8192 m through Ins::Output are within a quarter of a millimetre *)
Theorem C104_height_precision : forall h, Rabs h <= 8192 -> Rabs (f_ins_height h - h) <= / 2 ^ 12.
Proof.
  intros v H. unfold f_ins_height. eapply Rle_trans; [apply (rn32_err 13); [lia|exact H]|].
  change (bpow radix2 (13 - 25)) with (/ 4096). lra.
Qed.
Print Assumptions C104_height_precision.
(** the order of two values is never reversed, and a value that is a float is returned unchanged *)
Theorem C104_order_kept : forall x y, x <= y ->
  f_get_vel x <= f_get_vel y /\ f_ins_height x <= f_ins_height y /\
  (forall deg, 0 < deg -> f_get_atti deg x <= f_get_atti deg y).
Proof.
  intros x y H. refine (conj _ (conj _ _)); try (apply rn32_mono; exact H).
  intros deg D. apply rn32_mono, rn_mono. apply Rmult_le_compat_r; [left; apply Rinv_0_lt_compat; exact D|exact H].
Qed.
Print Assumptions C104_order_kept.
Theorem C104_float_unchanged : forall x, b32 x -> f_get_vel x = x /\ f_ins_height x = x.
Proof. intros x H. split; apply rn32_exact; exact H. Qed.
Print Assumptions C104_float_unchanged.
Example C104_float_case : b32 12.5 /\ f_get_vel 12.5 = 12.5.
Proof.
  assert (F : b32 12.5).
  { apply generic_format_FLT. exists (Float radix2 25 (-1)); cbn; try lia. unfold F2R. cbn. lra. }
  split; [exact F|]. apply C104_float_unchanged. exact F.
Qed.
