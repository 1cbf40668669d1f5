(** What the conversions should compute, written from the textbook definitions. *)
From Coq Require Import Reals.
From Verif Require Import RealMath EarthModel.
Open Scope R_scope.

(** an orthogonal matrix with determinant one *)
Definition rotation (m : mat) : Prop := mmul (mtrans m) m = eye /\ mmul m (mtrans m) = eye /\ mdet m = 1.

(** rotations about the three axes *)
Definition rot_x (a : R) : mat := M 1 0 0  0 (cos a) (- sin a)  0 (sin a) (cos a).
Definition rot_y (a : R) : mat := M (cos a) 0 (sin a)  0 1 0  (- sin a) 0 (cos a).
Definition rot_z (a : R) : mat := M (cos a) (- sin a) 0  (sin a) (cos a) 0  0 0 1.

(** attitude of a body with roll, pitch and heading: first roll, then pitch, then heading *)
Definition attitude (roll pitch heading : R) : mat := mmul (rot_z heading) (mmul (rot_y pitch) (rot_x roll)).

(** the quaternion of the rotation by the angle |v| about the direction of v *)
Definition exact_quaternion (v : vec) : quat :=
  let t := vnorm v in
  if Req_EM_T t 0 then qone
  else Q (cos (t / 2)) (sin (t / 2) * (vx v / t)) (sin (t / 2) * (vy v / t)) (sin (t / 2) * (vz v / t)).

(** vector rotated by a unit quaternion: q (0,v) q* *)
Definition qrotate (q : quat) (v : vec) : vec :=
  let r := qmul (qmul q (Q 0 (vx v) (vy v) (vz v))) (qconj q) in V (qx r) (qy r) (qz r).

(** the axes of the local frame (north, east, down) at a point, in earth-fixed coordinates *)
Definition north (lat lon : R) : vec := V (- sin lat * cos lon) (- sin lat * sin lon) (cos lat).
Definition east (lat lon : R) : vec := V (- sin lon) (cos lon) 0.
Definition up (lat lon : R) : vec := V (cos lat * cos lon) (cos lat * sin lon) (sin lat).

(** the reference ellipsoid with semi axes a and b, b^2 = a^2 (1 - e^2) *)
Definition on_ellipsoid (p : vec) : Prop :=
  (vx p * vx p + vy p * vy p) / semi_major ^ 2 + vz p * vz p / (semi_major ^ 2 * (1 - e2)) = 1.
(** direction of the outward normal of the ellipsoid through p: half the gradient of the left side above *)
Definition gradient (p : vec) : vec :=
  V (vx p / semi_major ^ 2) (vy p / semi_major ^ 2) (vz p / (semi_major ^ 2 * (1 - e2))).
