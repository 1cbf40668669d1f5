(** Proofs about the attitude-only filter. *)
From Coq Require Import Reals List Lra Psatz.
From Verif Require Import RealMath EarthModel ConvertModel ConvertSpec ConvertProofs MathWrap SmoothModel AhrsModel.
Import ListNotations.
Open Scope R_scope.

Lemma a_max_pos : 0 < a_max. Proof. unfold a_max. assert (P := PI_RGT_0). lra. Qed.
Lemma clamp_abs x : Rabs (clamp x) <= a_max.
Proof.
  assert (P := a_max_pos). unfold clamp. destruct (Rlt_dec a_max x); [apply Rabs_le; lra|].
  destruct (Rlt_dec x (- a_max)); apply Rabs_le; lra.
Qed.

Definition unit_op (o : ahrs_op) : Prop := match o with OpQuat q => qnorm2 q = 1 | _ => True end.
Definition sound_op (o : ahrs_op) : Prop := match o with OpQuat _ => False | _ => True end.

Definition bounded (v : vec) : Prop := Rabs (vx v) <= a_max /\ Rabs (vy v) <= a_max /\ Rabs (vz v) <= a_max.

Lemma do_inv s o : qnorm2 (a_qnb s) = 1 -> bounded (a_int s) -> unit_op o ->
  qnorm2 (a_qnb (ahrs_do s o)) = 1 /\ bounded (a_int (ahrs_do s o)).
Proof.
  intros N B U. destruct o as [e|q|x]; simpl in *.
  - split; [apply euler_quaternion_unit|exact B].
  - split; [exact U|exact B].
  - split; [|repeat split; apply clamp_abs].
    apply qnormalized_unit. rewrite qnorm2_mul, N, Rmult_1_l. apply rv_norm_pos.
Qed.

Lemma bounded_zero : bounded vzero.
Proof. assert (P := a_max_pos). unfold bounded; simpl. rewrite Rabs_R0. lra. Qed.

Lemma ahrs_invariant dt ops : Forall unit_op ops ->
  let s := ahrs_run (ahrs_new dt) ops in
  qnorm2 (a_qnb s) = 1 /\ Rabs (vx (a_int s)) <= PI / 180 /\ Rabs (vy (a_int s)) <= PI / 180 /\ Rabs (vz (a_int s)) <= PI / 180.
Proof.
  intros H. cbv zeta. change (PI / 180) with a_max.
  change (qnorm2 (a_qnb (ahrs_run (ahrs_new dt) ops)) = 1 /\ bounded (a_int (ahrs_run (ahrs_new dt) ops))).
  assert (G : forall s, qnorm2 (a_qnb s) = 1 -> bounded (a_int s) -> qnorm2 (a_qnb (ahrs_run s ops)) = 1 /\ bounded (a_int (ahrs_run s ops))).
  { induction H as [|o ops U H IH]; intros s N B; simpl; auto.
    destruct (do_inv s o N B U). apply IH; auto. }
  apply G; simpl; [apply euler_quaternion_unit|apply bounded_zero].
Qed.

(** the matrix used for the read-out belongs to the quaternion, when attitudes are only set as Euler angles
    or after the next sample *)
Lemma ahrs_matrix dt ops o : Forall unit_op ops -> sound_op o ->
  let s := ahrs_run (ahrs_new dt) (ops ++ [o]) in
  a_Cnb s = quaternion_to_dcm (a_qnb s) /\ rotation (a_Cnb s).
Proof.
  intros U S. cbv zeta. unfold ahrs_run. rewrite fold_left_app. simpl.
  set (s := fold_left ahrs_do ops (ahrs_new dt)).
  assert (E : a_Cnb (ahrs_do s o) = quaternion_to_dcm (a_qnb (ahrs_do s o))).
  { destruct o; simpl in *; [reflexivity|contradiction|reflexivity]. }
  split; [exact E|]. rewrite E. apply dcm_rotation.
  destruct (ahrs_invariant dt ops U) as (N & B).
  apply do_inv; [exact N|exact B|destruct o; simpl in *; tauto].
Qed.

(** setting the attitude as a quaternion leaves the read-out at the old attitude *)
Lemma ahrs_stale : ~ (forall dt q, qnorm2 q = 1 ->
  ahrs_atti (ahrs_set_quat (ahrs_new dt) q) = dcm_to_euler (quaternion_to_dcm q)).
Proof.
  intros H. assert (P := PI_RGT_0). specialize (H 1 (euler_to_quaternion (V 0 (PI / 6) 0)) (euler_quaternion_unit _)).
  rewrite euler_dcm_quaternion, euler_roundtrip in H; try lra; [|rewrite sin_PI6; lra].
  unfold ahrs_atti, ahrs_set_quat, ahrs_new in H; simpl in H.
  rewrite euler_dcm_quaternion in H. unfold vzero in H. rewrite euler_roundtrip in H; try (rewrite ?sin_0; lra).
  inversion H. lra.
Qed.

(** with a magnetometer the quaternion is not normalised *)
Lemma ahrs_mag_norm : ~ (forall s gyro acc mag, qnorm2 (a_qnb s) = 1 -> a_Cnb s = quaternion_to_dcm (a_qnb s) ->
  qnorm2 (a_qnb (ahrs_update_mag s gyro acc mag)) = 1).
Proof.
  intros H. specialize (H (ahrs_new 1) (V 1 0 0) vzero vzero (euler_quaternion_unit _) eq_refl).
  unfold ahrs_update_mag in H. cbn [a_qnb] in H. rewrite qnorm2_mul in H.
  assert (Z : vnorm vzero = 0) by (unfold vnorm, dot, vzero; simpl; rewrite !Rmult_0_l, !Rplus_0_r; apply sqrt_0).
  rewrite Z in H. destruct (Rlt_dec (1 / 10) 0); [lra|].
  assert (E : forall m b, vadd (cross m vzero) (cross b vzero) = vzero) by (intros; unfold vzero; vring).
  rewrite E in H.
  replace (vscale (a_ts (ahrs_new 1))
               (vsub (vsub (V 1 0 0) (vscale a_Kp vzero))
                  (vadd (a_int (ahrs_new 1)) (vscale (a_Ki * a_ts (ahrs_new 1)) vzero)))) with (V 1 0 0) in H
    by (unfold ahrs_new, vzero; simpl; apply vec_ext; simpl; ring).
  assert (U : qnorm2 (a_qnb (ahrs_new 1)) = 1) by apply euler_quaternion_unit.
  rewrite U, Rmult_1_l in H.
  unfold rv_to_quaternion in H; simpl in H. assert (P := PI_gt_3).
  destruct (Rlt_dec (1 * 1 + 0 * 0 + 0 * 0) (PI * PI)); [|nra].
  unfold qnorm2 in H; simpl in H. lra.
Qed.
