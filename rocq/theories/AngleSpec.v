(** What the mounting angles are to achieve. *)
From Coq Require Import Reals List.
From Verif Require Import RealMath ConvertModel FusionBase AngleModel.
Open Scope R_scope.

(** travel seen by the sensor when it is turned by the small angle t *)
Definition turned (t vb : vec) : vec := vadd vb (cross t vb).
(** squared sideways and vertical part of it: a car has none *)
Definition slip (t vb : vec) : R := vy (turned t vb) * vy (turned t vb) + vz (turned t vb) * vz (turned t vb).
Fixpoint total_slip (t : vec) (vbs : list vec) : R :=
  match vbs with nil => 0 | vb :: rest => slip t vb + total_slip t rest end.
(** slip weighted with the variance 100 of the speeds, the angles themselves with their variance 0.4 *)
Definition angle_cost (vbs : list vec) (t : vec) : R := total_slip t vbs / 100 + dot t t / (4 / 10).
(** sum of the squares of the speeds forward *)
Fixpoint forward (vbs : list vec) : R := match vbs with nil => 0 | vb :: rest => vx vb * vx vb + forward rest end.
