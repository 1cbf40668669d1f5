(** What an IMU that does not move relative to the earth measures. *)
From Coq Require Import Reals.
From Verif Require Import RealMath EarthModel.
Open Scope R_scope.

(** rotation of the earth during dt, in north, east, down axes at a latitude *)
Definition earth_turn (lat dt : R) : vec := V (omega_e * cos lat * dt) 0 (- (omega_e * sin lat * dt)).
(** integrated angular rate and specific force of a unit at rest with attitude matrix C (body to local):
    the unit turns with the earth, and its support accelerates it upwards against gravity *)
Definition rest_gyro (C : mat) (lat dt : R) : vec := mvec (mtrans C) (earth_turn lat dt).
Definition rest_force (C : mat) (lat h dt : R) : vec := mvec (mtrans C) (V 0 0 (- (gravity lat h * dt))).
(** a quarter of the squared turn of the earth, times the velocity gravity gives in one epoch: about 1.3e-14 m/s
    for samples every 10 ms *)
Definition rest_bound (lat h dt : R) : R := 1 / 4 * (omega_e * dt) ^ 2 * (gravity lat h * dt).
