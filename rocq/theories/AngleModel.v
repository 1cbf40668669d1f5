(** Tools/ObtainInstallAngle.cpp: the mounting angles from a recorded navigation result, over the reals. *)
From Coq Require Import Reals.
From mathcomp Require Import all_ssreflect ssralg matrix.
From Verif Require Import Rfield RealMath ConvertModel FusionBase KalmanModel InfoSpec InfoModel.
Local Open Scope ring_scope.

(** Src/RgioeDataType.h NavOutput: the members vn and atti (degrees) the tool reads, in Tools/ObtainInstallAngle.cpp:45-46.
    The reader itself (line 26) belongs to a class that is commented out in App/AppCommon/FileIO.h, so the records are given. *)
Record nav_record := NavRecord { n_vn : vec; n_atti : vec }.
(** Tools/ObtainInstallAngle.cpp:45-46 Cbn and vb *)
Definition body_velocity (n : nav_record) : vec := mvec (mtrans (euler_to_dcm (vscale deg (n_atti n)))) (n_vn n).
(** Tools/ObtainInstallAngle.cpp:48: rows 1 and 2 of skew(-vb).
    Simplification: line 48 keeps a block of a temporary matrix that is gone after the statement; the rows are taken
    to be what they were *)
Definition angle_h (vb : vec) : 'M[R]_(2, 3) := \matrix_(i, j) entry (skew (vneg vb)) i.+1 j.
(** Tools/ObtainInstallAngle.cpp:49 Y *)
Definition angle_y (vb : vec) : 'cV[R]_2 := \matrix_(i, j) coord (vneg vb) i.+1.
(** Tools/ObtainInstallAngle.cpp:38, 48-49: one record as H, R, Y *)
Definition angle_record (n : nav_record) : measurement 3 :=
  Measurement 2 (angle_h (body_velocity n)) (IZR 100)%:M (angle_y (body_velocity n)).
(** Tools/ObtainInstallAngle.cpp:36, 39: P and theta at the start *)
Definition angle_start : 'cV[R]_3 * 'M[R]_3 := (0, (Rdiv (IZR 4) (IZR 10))%:M).
(** Tools/ObtainInstallAngle.cpp:42-59: theta behind the last record, in radian *)
Definition install_angle (ns : seq nav_record) : option vec :=
  match feed_all angle_start (map angle_record ns) with
  | Some (theta, _) => Some (V (theta (inord 0) ord0) (theta (inord 1) ord0) (theta (inord 2) ord0))
  | None => None
  end.
