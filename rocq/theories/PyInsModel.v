(** Model of Tools/InsCore.py: the earth, the conversions and the mechanisation, in Python with numpy.

    Numbers are real.  numpy divides by zero without an exception; what depends on a result that is not finite is [None] here, except that
    np.arctan takes infinities.  The week and the printing functions are left out. *)
From Coq Require Import Reals List.
From Verif Require Import RealMath EarthModel ConvertModel SmoothModel InsModel.
Import ListNotations.
Open Scope R_scope.

(** InsCore.py:48 r *)
Definition yr : R := 6378137.
(** InsCore.py:50 omega_e *)
Definition y_omega_e : R := 72921151467 / 10 ^ 15.
(** InsCore.py:52 e2 *)
Definition y_e2 : R := 669437999013 / 10 ^ 14.
(** InsCore.py:54 g0 *)
Definition y_g0 : R := 97803267715 / 10 ^ 10.
(** InsCore.py:56-58 omega_ie_e *)
Definition y_ie_e : vec := V 0 0 y_omega_e.
(** InsCore.py:60-61 RM; np.power(x, 1.5) *)
Definition y_RM (phi : R) : R := let x := 1 - y_e2 * sin phi * sin phi in yr * (1 - y_e2) / (x * sqrt x).
(** InsCore.py:63-64 RN *)
Definition y_RN (phi : R) : R := yr / sqrt (1 - y_e2 * sin phi * sin phi).
(** InsCore.py:66-68 dN *)
Definition y_dN (lat1 lat2 : R) : R := (lat1 - lat2) * y_RM lat1.
(** InsCore.py:70-72 dE *)
Definition y_dE (lat1 lon1 lon2 : R) : R := (lon1 - lon2) * y_RN lat1 * cos lat1.
(** InsCore.py:94-108 lla_to_ecef *)
Definition y_lla_to_ecef (lla : vec) : vec :=
  let lat := vx lla in let lon := vy lla in let h := vz lla in let rn := y_RN lat in
  V ((rn + h) * cos lat * cos lon) ((rn + h) * cos lat * sin lon) ((rn * (1 - y_e2) + h) * sin lat).
(** InsCore.py:129-134 omega_en_n; [None]: a division by zero or the tangent of a right angle *)
Definition y_en (vn ve h lat : R) : option vec :=
  let rm := y_RM lat in let rn := y_RN lat in
  if Req_EM_T (cos lat) 0 then None else if Req_EM_T (rn + h) 0 then None else if Req_EM_T (rm + h) 0 then None
  else Some (V (ve / (rn + h)) (- vn / (rm + h)) (- ve * tan lat / (rn + h))).
(** InsCore.py:136-137 omega_ie_n *)
Definition y_ie (phi : R) : vec := V (y_omega_e * cos phi) 0 (- y_omega_e * sin phi).
(** InsCore.py:139-144 g *)
Definition y_g (lat h : R) : R :=
  let sin2 := sin lat ^ 2 in
  y_g0 * (1 + 52790414 / 10 ^ 10 * sin2 + 232718 / 10 ^ 10 * sin2 ^ 2) + h * (43977311 / 10 ^ 16 * sin2 - 30876910891 / 10 ^ 16)
  + 7211 / 10 ^ 16 * h ^ 2.

(** InsCore.py:172-185 Quaternion.__mul__ *)
Definition y_mul (p q : quat) : quat :=
  Q (qw p * qw q - qx p * qx q - qy p * qy q - qz p * qz q)
    (qw p * qx q + qx p * qw q + qy p * qz q - qz p * qy q)
    (qw p * qy q + qy p * qw q + qz p * qx q - qx p * qz q)
    (qw p * qz q + qz p * qw q + qx p * qy q - qy p * qx q).
(** InsCore.py:187-188 Quaternion.__abs__ *)
Definition y_abs (q : quat) : R := sqrt (qw q * qw q + (qx q * qx q + qy q * qy q + qz q * qz q)).
(** InsCore.py:191-196 __truediv__ and normalize; [None]: a division by zero *)
Definition y_normalize (q : quat) : option quat :=
  let n := y_abs q in if Req_EM_T n 0 then None else Some (Q (qw q / n) (qx q / n) (qy q / n) (qz q / n)).
(** InsCore.py:198-199 conj *)
Definition y_conj (q : quat) : quat := Q (qw q) (- qx q) (- qy q) (- qz q).
(** InsCore.py:202-210 gyro_to_rv *)
Definition y_gyro_to_rv (theta theta_1 : vec) : vec := vadd theta (vdiv (cross theta_1 theta) 12).
(** InsCore.py:213-242 rv_to_quaternion *)
Definition y_rv_to_quaternion (rv : vec) : quat :=
  let mag2 := vx rv ^ 2 + vy rv ^ 2 + vz rv ^ 2 in
  if Rlt_dec mag2 (PI ^ 2) then
    let m := 25 / 100 * mag2 in
    let c := 1 - m / 2 * (1 - m / 12 * (1 - m / 30)) in
    let s := 1 - m / 6 * (1 - m / 20 * (1 - m / 42)) in
    Q c (5 / 10 * s * vx rv) (5 / 10 * s * vy rv) (5 / 10 * s * vz rv)
  else
    let mag := sqrt mag2 in let s_mag := sin (mag / 2) in
    let q := Q (cos (mag / 2)) (vx rv * s_mag / mag) (vy rv * s_mag / mag) (vz rv * s_mag / mag) in
    if Rlt_dec (qw q) 0 then Q (- cos (mag / 2)) (- vx rv * s_mag / mag) (- vy rv * s_mag / mag) (- vz rv * s_mag / mag) else q.
(** InsCore.py:346-354 skew_sym *)
Definition y_skew (p : vec) : mat := M 0 (- vz p) (vy p) (vz p) 0 (- vx p) (- vy p) (vx p) 0.
(** InsCore.py:245-249 rv_to_dcm; [None]: 0 / 0 *)
Definition y_rv_to_dcm (rv : vec) : option mat :=
  let norm := sqrt (vx rv * vx rv + vy rv * vy rv + vz rv * vz rv) in
  if Req_EM_T norm 0 then None
  else Some (madd (madd eye (mscale (sin norm / norm) (y_skew rv))) (mscale ((1 - cos norm) / (norm * norm)) (mmul (y_skew rv) (y_skew rv)))).
(** InsCore.py:252-273 quaternion_to_dcm *)
Definition y_quaternion_to_dcm (q : quat) : mat :=
  let q1 := qw q in let q2 := qx q in let q3 := qy q in let q4 := qz q in
  M (q1 * q1 + q2 * q2 - q3 * q3 - q4 * q4) (2 * (q2 * q3 - q1 * q4)) (2 * (q2 * q4 + q1 * q3))
    (2 * (q2 * q3 + q1 * q4)) (q1 * q1 - q2 * q2 + q3 * q3 - q4 * q4) (2 * (q3 * q4 - q1 * q2))
    (2 * (q2 * q4 - q1 * q3)) (2 * (q3 * q4 + q1 * q2)) (q1 * q1 - q2 * q2 - q3 * q3 + q4 * q4).
(** InsCore.py:276-297 dcm_to_euler *)
Definition y_dcm_to_euler (c : mat) : euler :=
  let pitch := xatan (xdiv (- m20 c) (sqrt (m21 c * m21 c + m22 c * m22 c))) in
  if Rle_dec (m20 c) (- (999 / 1000)) then Eu NaN pitch (atan2 (m12 c - m01 c) (m02 c + m11 c))
  else if Rle_dec (999 / 1000) (m20 c) then Eu NaN pitch (atan2 (m12 c + m01 c) (m02 c + m11 c) + PI)
  else Eu (Fin (atan2 (m21 c) (m22 c))) pitch (atan2 (m10 c) (m00 c)).
(** InsCore.py:309-319 euler_to_quaternion *)
Definition y_euler_to_quaternion (e : vec) : quat :=
  let r := vx e in let p := vy e in let h := vz e in
  Q (cos (r / 2) * cos (p / 2) * cos (h / 2) + sin (r / 2) * sin (p / 2) * sin (h / 2))
    (sin (r / 2) * cos (p / 2) * cos (h / 2) - cos (r / 2) * sin (p / 2) * sin (h / 2))
    (cos (r / 2) * sin (p / 2) * cos (h / 2) + sin (r / 2) * cos (p / 2) * sin (h / 2))
    (cos (r / 2) * cos (p / 2) * sin (h / 2) - sin (r / 2) * sin (p / 2) * cos (h / 2)).
(** InsCore.py:322-342 euler_to_dcm *)
Definition y_euler_to_dcm (phi theta psi : R) : mat :=
  M (cos theta * cos psi) (- cos phi * sin psi + sin phi * sin theta * cos psi) (sin phi * sin psi + cos phi * sin theta * cos psi)
    (cos theta * sin psi) (cos phi * cos psi + sin phi * sin theta * sin psi) (- sin phi * cos psi + cos phi * sin theta * sin psi)
    (- sin theta) (sin phi * cos theta) (cos phi * cos theta).
(** InsCore.py:110-127 and 357-368 lla_to_cne *)
Definition y_lla_to_cne (lat lon : R) : mat :=
  M (- sin lat * cos lon) (- sin lon) (- cos lat * cos lon) (- sin lat * sin lon) (cos lon) (- cos lat * sin lon) (cos lat) 0 (- sin lat).
(** InsCore.py:371-378 lla_to_qne *)
Definition y_lla_to_qne (lat lon : R) : quat :=
  let phi := - (25 / 100) * PI - 5 / 10 * lat in let lamda := 5 / 10 * lon in
  Q (cos phi * cos lamda) (- sin phi * sin lamda) (sin phi * cos lamda) (cos phi * sin lamda).
(** InsCore.py:381-391 qne_to_lla; [None]: the latitude is not finite *)
Definition y_qne_to_lla (q : quat) : option (R * R) :=
  match xatan (xdiv (qy q) (qw q)) with Fin a => Some (- (5 / 10) * PI - 2 * a, 2 * atan2 (qz q) (qw q)) | _ => None end.

(** InsCore.py:394-418 NavData: the state; roll, pitch and heading are also in [atti] there *)
Record pynav := PyNav { y_time : R; y_lat : R; y_lon : R; y_h : R; y_att : euler; y_vf : vec; y_dvn : vec; y_Qbn : quat; y_Cbn : mat; y_Qne : quat;
  y_Vn : vec; y_gb : vec; y_ab : vec; y_gs : vec; y_as : vec }.
(** InsCore.py:395-418: from a row of time (s), latitude, longitude (degrees), height, velocity, roll, pitch, heading (degrees) *)
Definition y_nav (t lat lon h : R) (vn a : vec) : pynav :=
  let d x := x * PI / 180 in
  PyNav t (d lat) (d lon) h (Eu (Fin (d (vx a))) (Fin (d (vy a))) (d (vz a))) vzero vzero
    (y_euler_to_quaternion (V (d (vx a)) (d (vy a)) (d (vz a)))) (y_euler_to_dcm (d (vx a)) (d (vy a)) (d (vz a)))
    (y_lla_to_qne (d lat) (d lon)) vn vzero vzero vzero vzero.
(** InsCore.py:435-442 compensate_imu *)
Definition y_compensate (x : imu) (n : pynav) (dt : R) : imu :=
  Imu (i_gpst x) (mvec (msub eye (mdiag (y_gs n))) (vsub (i_gyro x) (vscale dt (y_gb n))))
      (mvec (msub eye (mdiag (y_as n))) (vsub (i_acce x) (vscale dt (y_ab n)))).
(** InsCore.py:482-487 get_distance: north, east, height difference *)
Definition y_distance (n1 n2 : pynav) : vec := V (y_dN (y_lat n1) (y_lat n2)) (y_dE (y_lat n1) (y_lon n1) (y_lon n2)) (y_h n1 - y_h n2).

(** InsCore.py:497-602 mechanization_n: the contents of the object that is returned. In line 600 the quaternion that was not normalised
    replaces the one of line 589. *)
Definition y_mechanise (cur last : imu) (n : pynav) : option pynav :=
  let dt := i_gpst cur - y_time n in
  if Rlt_dec (Rabs dt) (1 / 10000) then Some n else
  let cur_c := y_compensate cur n dt in let last_c := y_compensate last n dt in
  let theta := i_gyro cur_c in let theta_1 := i_gyro last_c in let v := y_Vn n in
  let dv := i_acce cur_c in let dv_1 := i_acce last_c in
  bind (y_en (vx v) (vy v) (y_h n) (y_lat n)) (fun en0 =>
  let ie0 := y_ie (y_lat n) in
  let h_mid := y_h n - vz v * dt / 2 in
  let zeta_mid := vdiv (vscale dt (vadd en0 ie0)) 2 in
  let eps_mid := vdiv (vscale dt y_ie_e) 2 in
  let q_mid := y_mul (y_mul (y_conj (y_rv_to_quaternion eps_mid)) (y_Qne n)) (y_rv_to_quaternion zeta_mid) in
  bind (y_qne_to_lla q_mid) (fun ll =>
  let vn_mid := vadd v (vscale (5 / 10) (y_dvn n)) in
  let ie1 := y_ie (fst ll) in
  bind (y_en (vx vn_mid) (vy vn_mid) h_mid (fst ll)) (fun en1 =>
  let gamma := V 0 0 (y_g (y_lat n) (y_h n)) in
  let v_g_cor := vscale dt (vsub gamma (cross (vadd (vscale 2 ie1) en1) v)) in
  let zeta := vscale dt (vadd en1 ie1) in
  let vf_b := vadd (vadd dv (vscale (5 / 10) (cross theta dv))) (vdiv (vadd (cross theta_1 dv) (cross dv_1 theta)) 12) in
  let vf := mvec (mmul (msub eye (mscale (5 / 10) (y_skew zeta))) (y_Cbn n)) vf_b in
  let v' := vadd (vadd v vf) v_g_cor in
  let q_ne := y_mul (y_mul (y_conj (y_rv_to_quaternion (vscale dt y_ie_e))) (y_Qne n)) (y_rv_to_quaternion (vscale dt (vadd ie1 en1))) in
  bind (y_normalize q_ne) (fun Qne =>
  bind (y_qne_to_lla Qne) (fun place =>
  let vn_mid' := vdiv (vadd v v') 2 in
  let ie2 := y_ie (fst place) in
  bind (y_en (vx vn_mid') (vy vn_mid') h_mid (fst place)) (fun en2 =>
  let q_bb := y_rv_to_quaternion (y_gyro_to_rv theta theta_1) in
  let q := y_mul (y_mul (y_conj (y_rv_to_quaternion (vscale dt (vadd ie2 en2)))) (y_Qbn n)) q_bb in
  let C := y_quaternion_to_dcm q in
  Some (PyNav (i_gpst cur) (fst place) (snd place) (y_h n - vz vn_mid' * dt) (y_dcm_to_euler C) (vdiv vf dt) (vadd vf v_g_cor) q C Qne v'
          (y_gb n) (y_ab n) (y_gs n) (y_as n)))))))).

(** the objects of the program, by reference *)
Definition heap := nat -> pynav.
(** InsCore.py:515,520,602: current_epoch is the object last_epoch itself, which is changed and returned *)
Definition y_call (m : heap) (cur last : imu) (last_epoch : nat) : option (heap * nat) :=
  match y_mechanise cur last (m last_epoch) with
  | Some n => Some (fun r => if Nat.eqb r last_epoch then n else m r, last_epoch)
  | None => None
  end.
(** calls of mechanization_n with one sample after the other, each with the one before *)
Fixpoint y_run (n : pynav) (last : imu) (xs : list imu) : option pynav :=
  match xs with [] => Some n | x :: r => bind (y_mechanise x last n) (fun m => y_run m x r) end.

(** InsCore.py:82-85 and Tools/Earth.py:51-54, one turn of the loop: height and new latitude; [None]: a division by zero *)
Definition y_ecef_turn (p z lat : R) : option (R * R) :=
  let rn := y_RN lat in
  if Req_EM_T (cos lat) 0 then None
  else let h := p / cos lat - rn in
       if Req_EM_T (rn + h) 0 then None else Some (h, atan2 z (p * (1 - y_e2 * rn / (rn + h)))).
(** InsCore.py:80-91 and Tools/Earth.py:49-60: the loop with n more turns to go after this one; height, latitude and whether it came to an
    end before the message of line 90 *)
Fixpoint y_ecef_loop (n : nat) (p z h_pre lat : R) : option (R * R * bool) :=
  match y_ecef_turn p z lat with
  | None => None
  | Some (h, lat') => if Rlt_dec (Rabs (h - h_pre)) (1 / 10 ^ 8) then Some (h, lat', true)
                      else match n with O => Some (h, lat', false) | S m => y_ecef_loop m p z h lat' end
  end.
(** InsCore.py:74-92 and Tools/Earth.py:43-61 ecef_to_lla; circle goes from 0 to 10 *)
Definition y_ecef_to_lla (xyz : vec) : option (vec * bool) :=
  let x := vx xyz in let y := vy xyz in let z := vz xyz in
  let p := sqrt (x ^ 2 + y ^ 2) in
  let lon := 2 * atan2 y (x + p) in
  if Req_EM_T (p * (1 - y_e2)) 0 then None
  else match y_ecef_loop 10 p z 0 (atan (z / (p * (1 - y_e2)))) with
       | Some (h, lat, ok) => Some (V lat lon h, ok)
       | None => None
       end.
(** Tools/ErrorAnalyser.py:22-32 compensate: latitude and longitude in degrees, height; roll, pitch, heading in degrees; the arm in body axes *)
Definition y_lever (nav atti offset : vec) : option vec :=
  let k := PI / 180 in
  let p := V (vx nav * k) (vy nav * k) (vz nav) in
  let cbn := y_euler_to_dcm (vx atti * k) (vy atti * k) (vz atti * k) in
  let cne := y_lla_to_cne (vx p) (vy p) in
  match y_ecef_to_lla (vadd (y_lla_to_ecef p) (mvec (mmul cne cbn) offset)) with
  | Some (r, _) => Some (V (vx r / k) (vy r / k) (vz r))
  | None => None
  end.
