(** Wheel speeds: C107. *)
From Coq Require Import Reals ZArith.
From mathcomp Require Import all_ssreflect ssralg matrix.
From Verif Require Import Rfield RealMath InsModel FusionBase KalmanModel KalmanSpec FusionModel FusionCases WheelSpec WheelProofs.
Import GRing.Theory.
Local Open Scope ring_scope.

(** ** C107: every wheel velocity is used, with a gain that does not depend on it, and the correction is the gain times the difference of
    what the state says about the wheel and the scaled reading. Without the constraint on sideways motion only the speed ahead counts *)
Theorem C107_wheel_gain : forall s, psd (kP (f_kf s)) -> o_odo_std (f_opt s) <> IZR 0 ->
  (o_nhc (f_opt s) = true -> o_nhc_std0 (f_opt s) <> IZR 0 /\ o_nhc_std1 (f_opt s) <> IZR 0) ->
  exists (gain : 'M[R]_(15, 3)) (p : 'M[R]_15),
    (o_nhc (f_opt s) = false -> forall k, gain k (inord 1) = 0 /\ gain k (inord 2) = 0) /\
    forall vel, exists t, velocity_update_f s vel = Some t /\ kX (f_kf t) = gain *m column (fun _ => misfit s vel) /\ kP (f_kf t) = p.
Proof. exact wheel_gain. Qed.
Print Assumptions C107_wheel_gain.
(** so that a reading the state explains changes nothing *)
Theorem C107_explained : forall s vel t, vscale (n_kd (s_nav (f_ins s))) vel = says s -> velocity_update_f s vel = Some t -> kX (f_kf t) = 0.
Proof. exact wheel_explained. Qed.
Print Assumptions C107_explained.
(** and the corrected state never overshoots: the speed ahead moves by a share of the difference, less than all of it *)
Theorem C107_no_overshoot : forall s vel t, psd (kP (f_kf s)) -> o_odo_std (f_opt s) <> IZR 0 -> o_nhc (f_opt s) = false ->
  velocity_update_f s vel = Some t -> exists c : R, Rle 0 c /\ Rlt c 1 /\
  row_of (blocks (a := 3) (fun _ k => vel_h (f_ins s) (f_opt s) k)) 0 *m kX (f_kf t) = (Rmult c (vx (misfit s vel)))%:M.
Proof. exact wheel_share. Qed.
Print Assumptions C107_no_overshoot.
(** a unit at rest, and a wheel said to move with v: the difference is v *)
Example C107_case : let s := case_start 1 false (V 1 1 1) in
  psd (kP (f_kf s)) /\ o_odo_std (f_opt s) <> IZR 0 /\ o_nhc (f_opt s) = false /\
  (forall v, exists t, velocity_update_f s (V v 0 0) = Some t) /\ forall v, vx (misfit s (V v 0 0)) = Ropp v.
Proof. exact wheel_case. Qed.
