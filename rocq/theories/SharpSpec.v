(** How well something measured is known behind the measurement (C162). *)
From Coq Require Import Reals List.
From mathcomp Require Import all_ssreflect ssralg matrix.
From Verif Require Import Rfield RealMath ConvertModel InsModel FusionBase FusionModel KalmanSpec.
Local Open Scope R_scope.

(** v is the variance of the quantity f, a linear function of the error of the states, for the covariance p *)
Definition variance_of (p : 'M[R]_15) (f : 'cV[R]_15 -> R) (v : R) : Prop :=
  exists w : 'cV[R]_15, (forall e, f e = (w^T *m e)%R ord0 ord0) /\ v = variance p w.
(** the errors that an error of the states means, in metres or m/s: of the place of the antenna, north, east and down; of the velocity;
    of the velocity of the wheel, ahead, right and down. Parts 0 to 3 of the states: place, velocity, attitude, gyroscope bias *)
Definition antenna_error (s : fusion) (e : 'cV[R]_15) : vec :=
  vadd (part e 0) (cross (mvec (n_Cbn (s_nav (f_ins s))) (o_lb_gnss (f_opt s))) (part e 2)).
Definition speed_error (e : 'cV[R]_15) : vec := part e 1.
Definition wheel_speed_error (s : fusion) (e : 'cV[R]_15) : vec :=
  let nav := s_nav (f_ins s) in
  mvec (euler_to_dcm (o_angle_bv (f_opt s)))
    (vsub (mvec (mtrans (n_Cbn nav)) (vsub (part e 1) (cross (n_vn nav) (part e 2)))) (cross (o_lb_wheel (f_opt s)) (part e 3))).
(** something known with variance a and measured with variance r is known with at most the variance of the weighted mean of both *)
Definition combined (a r a' : R) : Prop := a' * (a + r) <= a * r.
(** the sum of the reciprocals of the variances that the fixes have on axis k *)
Fixpoint weight_of (o : option_t) (k : nat) (gs : list gnss) : R :=
  match gs with nil => 0 | cons g r => / (coord (g_std g) k * coord (g_std g) k * o_gnss_scale o) + weight_of o k r end.
