(** Src/KalmanFilter.hpp: the innovation test, with the members KalmanModel leaves out. *)
From Coq Require Import Reals ZArith.
From mathcomp Require Import all_ssreflect ssralg matrix.
From Verif Require Import Rfield KalmanModel.
Import GRing.Theory.
Local Open Scope ring_scope.

(** Src/KalmanFilter.hpp:64-76: ak, reject_cnt and Td beside Xd and P (dk, b, rmin, rmax, rk, Q0 are used by no method).
    [t_kf], [t_ak], [t_cnt], [t_td]. *)
Record tested (n : nat) := Tested { t_kf : kf n; t_ak : R; t_cnt : Z; t_td : R }.
Arguments Tested {n} _ _ _ _.
Arguments t_kf {n} _. Arguments t_ak {n} _. Arguments t_cnt {n} _. Arguments t_td {n} _.

(** Src/KalmanFilter.hpp:78-81 GetX2 *)
Definition get_x2 {n} (k : tested n) : R := t_ak k.

(** Src/KalmanFilter.hpp:101-102 Cvk *)
Definition cvk {n m} (k : kf n) (h : 'M[R]_(m, n)) (r : 'M[R]_m) : 'M[R]_m := invmx (h *m kP k *m h^T + r).
(** Src/KalmanFilter.hpp:104 obs^T Cvk^{-1} obs; the norm of a 1 by 1 matrix is its absolute value *)
Definition ak_of {n m} (k : kf n) (h : 'M[R]_(m, n)) (z : 'cV[R]_m) (r : 'M[R]_m) : R :=
  Rabs ((z^T *m invmx (cvk k h r) *m z) ord0 ord0).
(** Src/KalmanFilter.hpp:105-108: the branch on ak > Td only counts, and the counter is set to 0 behind it *)
Definition counted (ak td : R) (c : Z) : Z := if Rlt_dec td ak then (if Z.ltb c 3 then Z.modulo (c + 1) (2 ^ 32) else c) else c.
(** Src/KalmanFilter.hpp:95-115 Update *)
Definition tested_update {n m} (k : tested n) (h : 'M[R]_(m, n)) (z : 'cV[R]_m) (r : 'M[R]_m) : option (tested n) :=
  let ak := ak_of (t_kf k) h z r in
  let c := counted ak (t_td k) (t_cnt k) in
  let c' := 0%Z in
  match kf_update (t_kf k) h z r with
  | None => None
  | Some k' => Some (Tested k' ak c' (t_td k))
  end.
