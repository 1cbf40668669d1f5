(** States whose place and position quaternion have drifted apart (C75-C77, C145). *)
From Coq Require Import Reals.
From Verif Require Import RealMath EarthModel ConvertModel InsModel JacobianSpec.
Open Scope R_scope.

(** the position quaternion turns the local axes into the earth-fixed ones; a quaternion made from a latitude and a longitude
    has slip 0: its east axis lies in the plane of the equator *)
Definition slip (q : quat) : R := (qw q * qx q + qy q * qz q) / (qw q * qw q).

(** the place reported by a state is read from its position quaternion, and the rates of latitude and longitude are finite there *)
Definition located (s : ins) (lat lon h : R) : Prop :=
  n_pos (s_nav s) = V lat lon h /\ lla_opt (n_Qne (s_nav s)) = Some (lat, lon) /\ qnorm2 (n_Qne (s_nav s)) = 1 /\
  cos lat <> 0 /\ RN lat + h <> 0 /\ RM lat + h <> 0 /\
  qnorm2 (n_Qbn (s_nav s)) = 1 /\ n_Cbn (s_nav s) = quaternion_to_dcm (n_Qbn (s_nav s)).

(** per unit of slip: how much further (north, east) a correction by x moves the place *)
Definition slip_shift (lat lon h : R) (x : vec) : vec :=
  V ((1 - sin lat) / (2 * cos lat) * ((RM lat + h) / (RN lat + h)) * vy x)
    (cos lat * (sin lon / 2 * vy x - (1 + cos lon) / 2 * ((RN lat + h) / (RM lat + h)) * vx x)) 0.

(** the estimated position error with the part due to the slip *)
Definition slipped (s : ins) (lat lon h : R) (x : vec) : vec := vadd x (vscale (slip (n_Qne (s_nav s))) (slip_shift lat lon h x)).
