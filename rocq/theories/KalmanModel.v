(** Src/KalmanFilter.hpp: the Kalman filter, over the reals. *)
From Coq Require Import Reals.
From mathcomp Require Import all_ssreflect ssralg matrix.
From Verif Require Import Rfield.
Import GRing.Theory.
Local Open Scope ring_scope.

(** Src/KalmanFilter.hpp:27-29, 65-66: the members Xd and P. ak, reject_cnt and the rest do not influence them
    (lines 101-105 compute ak and reset the rejection counter in every call). *)
Record kf (n : nat) := Kf { kX : 'cV[R]_n; kP : 'M[R]_n }.
Arguments Kf {n} _ _.
Arguments kX {n} _.
Arguments kP {n} _.

(** Src/KalmanFilter.hpp:83-85 Reset *)
Definition kf_reset {n} (k : kf n) : kf n := Kf 0 (kP k).

(** Src/KalmanFilter.hpp:133-136 Predict *)
Definition kf_predict {n} (k : kf n) (phi q : 'M[R]_n) : kf n :=
  Kf (phi *m kX k) (phi *m kP k *m phi^T + q).

(** Src/KalmanFilter.hpp:98-115 Update with H, the observation and R. [None]: the matrix to be inverted is singular,
    the inverse then contains infinities or NaN, and so do Xd and P. *)
Definition kf_update {n m} (k : kf n) (h : 'M[R]_(m, n)) (z : 'cV[R]_m) (r : 'M[R]_m) : option (kf n) :=
  let s := h *m kP k *m h^T + r in
  if s \in unitmx then
    let gain := kP k *m h^T *m invmx s in
    let temp := 1%:M - gain *m h in
    Some (Kf (gain *m z) (temp *m kP k *m temp^T + gain *m r *m gain^T))
  else None.
