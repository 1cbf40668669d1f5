(** The velocity of a wheel of a vehicle. *)
From Coq Require Import Reals.
From Verif Require Import RealMath ConvertModel InsModel FusionBase FusionModel.
Local Open Scope R_scope.

(** in the axes of the vehicle: C turns the axes of the unit into north, east and down, A into those of the vehicle, v is the
    velocity of the unit (north, east, down), w its rate of turn and lb the place of the wheel, both in axes of the unit *)
Definition wheel_moves (C A : mat) (v w lb : vec) : vec := mvec A (vadd (mvec (mtrans C) v) (cross w lb)).
(** the rate of turn over the ground: the measured rate without the rotation of the Earth and of the local level *)
Definition ground_rate (C : mat) (w wie wen : vec) : vec := vsub w (mvec (mtrans C) (vadd wie wen)).
(** what the state of the filter says about the wheel *)
Definition says (s : fusion) : vec :=
  let i := f_ins s in let n := s_nav i in let o := f_opt s in
  wheel_moves (n_Cbn n) (euler_to_dcm (o_angle_bv o)) (n_vn n)
    (ground_rate (n_Cbn n) (vscale (o_rate o) (s_gyro_pre i)) (s_wie i) (s_wen i)) (o_lb_wheel o).
(** its difference to a reported velocity of the wheel, times the scale factor of the state *)
Definition misfit (s : fusion) (vel : vec) : vec := vsub (says s) (vscale (n_kd (s_nav (f_ins s))) vel).
