(** Machine arithmetic of what goes in and out of the library, default build (FP64):
    [deg] is the constant of RgioeDataType.h:16 ([_deg], a double near pi/180). *)
From Coq Require Import Reals.
From Verif Require Import FloatSpec.
Open Scope R_scope.

(** InsCore.cpp:38  makeNavEpoch: pos = {nav_.lat * _deg, nav_.lon * _deg, ...} *)
Definition f_in_angle (deg x : R) : R := rn (x * deg).
(** DataFusion.cpp:553-554  Output: out.lat = projpos[0] / _deg *)
Definition f_out_angle (deg p : R) : R := rn (p / deg).
(** rgioe.cpp:260-263  rgioe_get_vel: vel[i] = (float) result.vn[i] *)
Definition f_get_vel (v : R) : R := rn32 v.
(** rgioe.cpp:221-226 and DataFusion.cpp:558  rgioe_get_atti: (float) (atti / _deg) *)
Definition f_get_atti (deg a : R) : R := rn32 (f_out_angle deg a).
(** InsCore.cpp:205  Ins::Output: out.height = (float) nav.pos[2] *)
Definition f_ins_height (h : R) : R := rn32 h.
