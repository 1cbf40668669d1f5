(** Properties C93, C94: the estimator of the installation angles. *)
From Coq Require Import Reals List Lra.
From Verif Require Import RealMath DcmModel DcmProofs.
Import ListNotations.
Open Scope R_scope.

(** * C93 *)
(** after any observations, and whichever singular value decomposition is used, the matrix is orthogonal *)
Theorem C93_orthogonal_partial : forall l e, updates l e ->
  mmul (e_dcm e) (mtrans (e_dcm e)) = eye /\ mmul (mtrans (e_dcm e)) (e_dcm e) = eye.
Proof. exact dcm_orthogonal. Qed.
Print Assumptions C93_orthogonal_partial.

(** it turns the weighted sum of the velocities to the forward axis *)
Theorem C93_forward_partial : forall l e, updates l e -> l <> [] ->
  mvec (e_dcm e) (resultant l) = vscale (vnorm (resultant l)) forward.
Proof. intros l e H N. exact (proj1 (dcm_forward l e H N)). Qed.
Print Assumptions C93_forward_partial.

(** driving straight: it turns the direction of travel in the body frame to the forward axis, so it leads from the body frame
    to the vehicle frame (the documentation says the opposite) *)
Theorem C93_straight_partial : forall k u l e, updates l e -> Forall (straight k u) l -> dot u u = 1 -> 0 < k -> 0 < speeds2 l ->
  mvec (e_dcm e) u = forward.
Proof. intros k u l e H F U K P. exact (proj1 (dcm_straight k u l e H F U K P)). Qed.
Print Assumptions C93_straight_partial.

(** the unit mounted with its second axis ahead: a proper rotation as documented would turn the forward axis into the second body
    axis; the estimated one turns it into the opposite of it *)
Theorem C93_direction_REFUTED : exists e, updates [Odo (V 0 1 0) 1] e /\ mdet (e_dcm e) = 1 /\
  mvec (e_dcm e) (V 0 1 0) = forward /\ mvec (e_dcm e) forward = V 0 (-1) 0.
Proof.
  eexists. split.
  - apply (U_one [] new_estimator (Odo (V 0 1 0) 1)); [apply U_none|].
    exists (M 0 (-1) 0 1 0 0 0 0 1), (V 1 0 0), eye. split; [|reflexivity].
    unfold is_svd, new_estimator, add_col0, eye, mmul, mtrans, mdiag, vscale; simpl.
    repeat split; try lra; f_equal; ring.
  - unfold mdet, mmul, mtrans, mvec, eye, forward; simpl. split; [ring|]. split; f_equal; ring.
Qed.
Print Assumptions C93_direction_REFUTED.

(** it can be a reflection: with V the identity, which is what the Jacobi method leaves when there is nothing to rotate *)
Theorem C93_rotation_REFUTED : exists e, updates [Odo (V (-1) 0 0) 1] e /\ mdet (e_dcm e) = -1.
Proof. exact reflection. Qed.
Print Assumptions C93_rotation_REFUTED.

(** the turn about the direction of travel is not determined by the observations *)
Theorem C93_roll_REFUTED :
  (exists e, updates [Odo (V 1 0 0) 1] e /\ e_dcm e = eye) /\
  (exists e, updates [Odo (V 1 0 0) 1] e /\ e_dcm e = M 1 0 0 0 (-1) 0 0 0 (-1)).
Proof. exact roll_open. Qed.
Print Assumptions C93_roll_REFUTED.

Example C93_case : exists e, updates [Odo (V 1 0 0) 1] e /\ Forall (straight 1 (V 1 0 0)) [Odo (V 1 0 0) 1] /\
  dot (V 1 0 0) (V 1 0 0) = 1 /\ 0 < speeds2 [Odo (V 1 0 0) 1] /\ e_dcm e = eye.
Proof.
  destruct roll_open as [(e & U & D) _]. exists e. split; [exact U|]. split.
  - repeat constructor. simpl. unfold vscale; simpl. f_equal; ring.
  - split; [unfold dot; simpl; ring|]. split; [unfold speeds2; simpl; lra|exact D].
Qed.

(** * C94 *)
(** with wheel speeds and straight driving the factor is the true one, up to a relative error of 1e-30 over the sum of squares *)
Theorem C94_scale_partial : forall k u l e, updates l e -> Forall (straight k u) l -> dot u u = 1 -> 0 < k -> 0 < speeds2 l ->
  Rabs (e_scale e - k) <= k / (10 ^ 30 * speeds2 l).
Proof. intros k u l e H F U K P. exact (proj2 (proj2 (dcm_straight k u l e H F U K P))). Qed.
Print Assumptions C94_scale_partial.

(** without wheel speeds it is the norm of the summed velocities times 1e30 *)
Theorem C94_no_odometer_REFUTED : forall l e, updates l e -> l <> [] -> Forall (fun o => exists vb, o = NoOdo vb) l ->
  e_scale e = vnorm (resultant l) * 10 ^ 30.
Proof.
  intros l e H N F. apply scale_without_odo; try assumption. clear H N. unfold speeds2.
  induction F as [|o l (vb & ->) _ IH]; simpl; [reflexivity|]. rewrite Rplus_0_l. exact IH.
Qed.
Print Assumptions C94_no_odometer_REFUTED.

Example C94_case : exists e, updates [NoOdo (V 2 0 0)] e /\ e_scale e = 4 * 10 ^ 30.
Proof.
  eexists. split.
  - apply (U_one [] new_estimator (NoOdo (V 2 0 0))); [apply U_none|].
    exists eye, (V 4 0 0), eye. split; [|reflexivity].
    unfold is_svd, new_estimator, add_col0, eye, mmul, mtrans, mdiag, vscale; simpl.
    repeat split; try lra; f_equal; ring.
  - cbn [e_scale vx new_estimator e_sum_vf]. rewrite Rplus_0_l. unfold Rdiv. rewrite Rinv_inv. reflexivity.
Qed.
