(** Model of the rest of Tools/InsCore.py that computes something: the sensor parameters (ImuPara, lines 13-38) and the distance of two places
    (get_distance_d, lines 490-494). *)
From Coq Require Import Reals.
From Verif Require Import RealMath ConfigModel PyInsModel.
Open Scope R_scope.

(** InsCore.py:14 _deg; numpy's pi is taken as the exact number *)
Definition py_deg : R := PI / 180.
(** InsCore.py:15 _hour *)
Definition py_hour : R := 3600.
(** InsCore.py:16 _sqrt_hour *)
Definition py_sqrt_hour : R := 60.
(** InsCore.py:17 _mGal *)
Definition py_mGal : R := 1 / 100000.
(** InsCore.py:18 _ppm *)
Definition py_ppm : R := 1 / 1000000.
(** InsCore.py:23-38 ImuPara.__init__: the numbers of the file by their keys; arrays as functions of the axis. Exact arithmetic. *)
Definition py_para (f : para_file) : imu_para :=
  {| gb_std := fun i => f_gb_std f i * py_deg / py_hour; ab_std := fun i => f_ab_std f i * py_mGal;
     gs_std := fun i => f_gs_std f i * py_ppm; as_std := fun i => f_as_std f i * py_ppm;
     gb_ini := fun i => f_gb_ini f i * py_deg / py_hour; ab_ini := fun i => f_ab_ini f i * py_mGal;
     gs_ini := fun i => f_gs_ini f i * py_ppm; as_ini := fun i => f_as_ini f i * py_ppm;
     arw := f_arw f * py_deg / py_sqrt_hour; vrw := f_vrw f / py_sqrt_hour;
     at_corr := f_at_corr f * py_hour; gt_corr := f_gt_corr f * py_hour |}.

(** InsCore.py:490-494 get_distance_d: north, east and distance in the plane *)
Definition py_distance_d (lat lon lat2 lon2 : R) : R * R * R :=
  let dn := y_dN lat lat2 in let de := y_dE lat lon lon2 in (dn, de, sqrt (dn * dn + de * de)).
(** InsCore.py:482-487 get_distance: with the distance in space *)
Definition py_distance (n1 n2 : pynav) : R * R * R * R :=
  let dn := y_dN (y_lat n1) (y_lat n2) in let de := y_dE (y_lat n1) (y_lon n1) (y_lon n2) in let dd := y_h n1 - y_h n2 in
  (dn, de, dd, sqrt (dn * dn + de * de + dd * dd)).
