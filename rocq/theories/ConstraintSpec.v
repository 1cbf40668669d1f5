(** The constraints an epoch applies on its own: no sideways motion of a wheeled vehicle, no motion at rest. *)
From Coq Require Import Reals ZArith.
From mathcomp Require Import all_ssreflect ssralg matrix.
From Verif Require Import Rfield RealMath InsModel SmoothModel KalmanModel JacobianSpec FusionBase FusionModel.
Local Open Scope R_scope.

(** the epochs in which each constraint is due: n samples have been mechanised, this one included *)
Definition side_due (s : fusion) : Prop := (Z.modulo (f_idx s) 32 = 1)%Z /\ o_nhc (f_opt s) = true /\ o_odo (f_opt s) = false.
Definition still_due (s : fusion) : Prop :=
  (Z.modulo (f_idx s) 8 <> 0)%Z /\ o_zupt (f_opt s) = true /\ is_static (f_smooth s) = true.
(** what the pending estimate says about the error of the velocity of the wheel (to first order: C78), and of the velocity *)
Definition wheel_error (s t : fusion) : vec := design (fun c => vel_h (f_ins s) (f_opt s) c) (err_of (kX (f_kf t))).
Definition velocity_error (t : fusion) : vec := part (kX (f_kf t)) 1.
(** the size of a sideways velocity (right, down), in units of the configured standard deviations *)
Definition side_square (a b : R) (v : vec) : R := vy v / a * (vy v / a) + vz v / b * (vz v / b).
Definition square (v : vec) : R := vx v * vx v + vy v * vy v + vz v * vz v.
(** the two constraints, in the order of an epoch *)
Definition constrain (s : fusion) : option fusion := bind (zupt_step s) nhc_step.
(** the configured standard deviations of the constraints that are switched on *)
Definition deviations (o : option_t) : Prop :=
  o_nhc_std0 o <> 0 /\ o_nhc_std1 o <> 0 /\ o_zupt_std o <> 0 /\ o_zupta_std o <> 0.
