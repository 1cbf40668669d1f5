(** The reported accuracies: C108. *)
From Coq Require Import Reals ZArith.
From mathcomp Require Import all_ssreflect ssralg matrix.
From Verif Require Import Rfield RealMath InsModel FusionBase KalmanModel KalmanSpec FusionModel FusionCases AlignModel ApiModel ApiCases AccuracySpec AccuracyProofs.
Local Open Scope ring_scope.

(** ** C108: while navigating, the reported accuracies are the standard deviations of the filter's position, velocity and attitude *)
Theorem C108_deviations_partial : forall d b d' q s, d_status d = RGIOE_STATUS_NAVIGATION -> d_fusion d = Some s ->
  api_do d (AResult b) = Some (d', RPva (Some q)) ->
  (forall v, p_pos_std q = Some v -> deviations v (kP (f_kf s)) 0) /\
  (forall v, p_vn_std q = Some v -> deviations v (kP (f_kf s)) 3) /\
  (forall v, p_atti_std q = Some v -> deviations v (kP (f_kf s)) 6) /\
  (psd (kP (f_kf s)) -> p_pos_std q <> None /\ p_vn_std q <> None /\ p_atti_std q <> None).
Proof. exact result_accuracies. Qed.
Print Assumptions C108_deviations_partial.
(** rgioe_get_vel and rgioe_get_atti report those of velocity and attitude *)
Theorem C108_getters : forall d d' s v w, d_fusion d = Some s ->
  (api_do d AVel = Some (d', RTriple v (Some w)) -> deviations w (kP (f_kf s)) 3) /\
  (api_do d AAtti = Some (d', RTriple v (Some w)) -> deviations w (kP (f_kf s)) 6).
Proof. exact getter_accuracies. Qed.
Print Assumptions C108_getters.
(** REFUTED: attitudes are reported in degrees and their accuracies in radians. The deviation of an angle in degrees is 180/PI times
    that of the state; the reported one is right only if it is zero *)
Theorem C108_attitude_units_refuted : forall d b d' q s v k, d_status d = RGIOE_STATUS_NAVIGATION -> d_fusion d = Some s ->
  api_do d (AResult b) = Some (d', RPva (Some q)) -> p_atti_std q = Some v -> (k < 3)%N ->
  (Rmult (coord v k) (coord v k) = Rmult (Rmult (Rdiv 180 PI) (Rdiv 180 PI)) (state_variance (kP (f_kf s)) (6 + k)) <->
   coord v k = IZR 0).
Proof. exact attitude_units. Qed.
Print Assumptions C108_attitude_units_refuted.
(** a navigating device with deviations of one metre *)
Example C108_case : forall p, let s := case_start 1 false (V 1 1 1) in
  exists d q v, d_status d = RGIOE_STATUS_NAVIGATION /\ d_fusion d = Some s /\ psd (kP (f_kf s)) /\
  api_do d (AResult p) = Some (d, RPva (Some q)) /\ p_pos_std q = Some v /\ coord v 0 = IZR 1.
Proof. exact accuracy_case. Qed.
