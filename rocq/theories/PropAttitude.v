(** Attitude over a long time: C140. *)
From Coq Require Import Reals List Lra.
From Verif Require Import RealMath ConvertModel ConvertSpec InsModel AttitudeSpec AttitudeProofs.
Import ListNotations.
Open Scope R_scope.

(** ** C140: over any history of samples and corrections, whose single turns are less than half a turn, the attitude is that of the exact
    composition of all turns up to the sum of the errors of the single turns; every direction v of the unit is reported with at most twice
    that sum times its length *)
Theorem C140_drift : forall ops s t, ins_run s ops = Some t -> qnorm2 (n_Qbn (s_nav s)) = 1 -> n_Cbn (s_nav s) = quaternion_to_dcm (n_Qbn (s_nav s)) ->
  Forall (fun v => vnorm v < PI) (all_turns s ops) ->
  let e := exact_attitude s ops (n_Qbn (s_nav s)) in
  qnorm2 e = 1 /\ forall v, vnorm (vsub (mvec (n_Cbn (s_nav t)) v) (qrotate e v)) <= 2 * sum_errors (all_turns s ops) * vnorm v.
Proof. exact attitude_error. Qed.
Print Assumptions C140_drift.
(** with turns of at most c: the error grows at most linearly with their number *)
Theorem C140_linear : forall ops s t c, ins_run s ops = Some t -> qnorm2 (n_Qbn (s_nav s)) = 1 -> n_Cbn (s_nav s) = quaternion_to_dcm (n_Qbn (s_nav s)) ->
  0 <= c < PI -> Forall (fun v => vnorm v <= c) (all_turns s ops) ->
  forall v, vnorm (vsub (mvec (n_Cbn (s_nav t)) v) (qrotate (exact_attitude s ops (n_Qbn (s_nav s))) v))
    <= INR (length (all_turns s ops)) * ((c / 2) ^ 8 / 4500) * vnorm v.
Proof.
  intros ops s t c H U M C F v. assert (F2 : Forall (fun v => vnorm v < PI) (all_turns s ops)) by (eapply Forall_impl; [|exact F]; cbv beta; intros; lra).
  destruct (attitude_error ops s t H U M F2) as [_ E]. specialize (E v). generalize (sum_bound _ c (proj1 C) F) (ConvertProofs.vnorm_nonneg v). intros S N.
  eapply Rle_trans; [exact E|]. apply Rmult_le_compat_r; [exact N|]. lra.
Qed.
Print Assumptions C140_linear.
(** a unit at rest, then a correction of the heading by a tenth of a radian *)
Example C140_case : forall t, exists u, ins_run turn_case [OpSample (turn_sample t); OpCorrect north_up] = Some u /\
  qnorm2 (n_Qbn (s_nav turn_case)) = 1 /\ n_Cbn (s_nav turn_case) = quaternion_to_dcm (n_Qbn (s_nav turn_case)) /\
  Forall (fun v => vnorm v < PI) (all_turns turn_case [OpSample (turn_sample t); OpCorrect north_up]) /\
  In (V 0 0 (1 / 10)) (all_turns turn_case [OpSample (turn_sample t); OpCorrect north_up]).
Proof. exact turn_example. Qed.
(** a million turns of a fifth of a radian (a thousand degrees a second at 100 Hz, for more than an hour): less than 3 microradian *)
Example C140_case_linear : INR (10 ^ 6) * ((1 / 5 / 2) ^ 8 / 4500) < 3 / 10 ^ 6.
Proof. rewrite pow_INR. replace (INR 10) with 10 by (cbn; ring). lra. Qed.
