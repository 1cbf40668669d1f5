(** Constraints that an epoch applies on its own: C138, C139. *)
From Coq Require Import Reals ZArith.
From mathcomp Require Import all_ssreflect ssralg matrix.
From Verif Require Import Rfield RealMath InsModel FusionBase KalmanModel KalmanSpec FusionModel FusionCases WheelSpec JacobianSpec ConstraintSpec ConstraintProofs.
Import GRing.Theory.
Local Open Scope ring_scope.

(** ** C138: every 32nd sample the constraint on sideways motion is applied, and always can be: the sideways velocity of the wheel that
    remains after the pending correction is not larger than before, in units of the configured deviations; the speed ahead plays no part:
    without sideways velocity nothing is corrected *)
Theorem C138_sideways : forall s, psd (kP (f_kf s)) -> deviations (f_opt s) ->
  (o_zupta (f_opt s) = true -> s_dt (f_ins s) <> IZR 0) -> side_due s -> exists2 t, constrain s = Some t &
    Rle (side_square (o_nhc_std0 (f_opt s)) (o_nhc_std1 (f_opt s)) (vsub (says s) (wheel_error s t)))
        (side_square (o_nhc_std0 (f_opt s)) (o_nhc_std1 (f_opt s)) (says s)) /\
    (vy (says s) = IZR 0 -> vz (says s) = IZR 0 -> kX (f_kf t) = 0).
Proof. exact side_constraint. Qed.
Print Assumptions C138_sideways.
(** these constraints are what an epoch does after the feedback and the mechanisation, and their estimate is the pending one *)
Theorem C138_epoch : forall s x t, time_update s x = Some t -> exists u v w, feed (take_estimate s) = Some u /\ propagate u x = Some v /\
  constrain v = Some w /\ f_kf t = f_kf w /\ f_ins t = f_ins w.
Proof. exact epoch_constraints. Qed.
Print Assumptions C138_epoch.
(** a level unit heading north with velocity v, in epoch 33: the wheel moves with v *)
Example C138_case : forall v, let s := moving v 33 in
  psd (kP (f_kf s)) /\ deviations (f_opt s) /\ o_zupta (f_opt s) = false /\ side_due s /\ says s = v.
Proof. move=> v s. have [a [b c]] := moving_case v 33. do 3!split=> //. split=> //. exact: moving_says. Qed.

(** ** C139 (refuted when both constraints are due): at rest the zero velocity update reduces the velocity that remains, and corrects
    nothing if the velocity is zero *)
Theorem C139_still_partial : forall s, psd (kP (f_kf s)) -> deviations (f_opt s) -> o_zupta (f_opt s) = false -> still_due s -> ~ side_due s ->
  exists2 t, constrain s = Some t &
    Rle (square (vsub (n_vn (s_nav (f_ins s))) (velocity_error t))) (square (n_vn (s_nav (f_ins s)))) /\
    (n_vn (s_nav (f_ins s)) = vzero -> kX (f_kf t) = 0).
Proof. exact still_constraint. Qed.
Print Assumptions C139_still_partial.
(** but when the constraint on sideways motion is due in the same epoch it overwrites that correction: whatever the speed ahead of a
    vehicle said to be at rest, without sideways motion nothing is corrected *)
Theorem C139_overwritten_refuted : forall s t, side_due s -> vy (says s) = IZR 0 -> vz (says s) = IZR 0 ->
  constrain s = Some t -> kX (f_kf t) = 0.
Proof. exact still_lost_side. Qed.
Print Assumptions C139_overwritten_refuted.
Example C139_case : forall v, let s := moving v 5 in
  psd (kP (f_kf s)) /\ deviations (f_opt s) /\ o_zupta (f_opt s) = false /\ still_due s /\ ~ side_due s /\ n_vn (s_nav (f_ins s)) = v.
Proof. move=> v s. have [a [b c]] := moving_case v 5. split=> //. split=> //. split=> //. split; first by split. split; last by []. by case. Qed.
(** both due, ten metres a second ahead *)
Example C139_case_overwritten : let s := moving (V 10 0 0) 33 in
  still_due s /\ side_due s /\ vy (says s) = IZR 0 /\ vz (says s) = IZR 0 /\ vx (says s) = IZR 10 /\ exists t, constrain s = Some t.
Proof.
move=> s. split=> //. split=> //. rewrite moving_says. do 3!split=> //.
have [a [b c]] := moving_case (V 10 0 0) 33. have z : o_zupta (f_opt s) = true -> s_dt (f_ins s) <> IZR 0 by rewrite c.
have [t e _] := side_constraint s a b z (conj erefl (conj erefl erefl)). by exists t.
Qed.
