(** Weighted least squares. *)
From Coq Require Import Reals.
From mathcomp Require Import all_ssreflect ssralg matrix.
From Verif Require Import Rfield KalmanSpec.

(** how badly the error x fits what was believed of it (covariance p, expected value x0) together with the measurement z,
    of which the matrix is h and the noise covariance r: both misfits weighted with the inverse of their covariance *)
Definition misfit {n m} (p : 'M[R]_n) (x0 : 'cV[R]_n) (h : 'M[R]_(m, n)) (r : 'M[R]_m) (z : 'cV[R]_m) (x : 'cV[R]_n) : R :=
  Rplus (variance (invmx p) (x - x0)%R) (variance (invmx r) (z - h *m x)%R).

(** a measurement of any number of components: its matrix, its noise, what was measured *)
Record measurement (n : nat) := Measurement { m_size : nat; m_h : 'M[R]_(m_size, n); m_r : 'M[R]_m_size; m_z : 'cV[R]_m_size }.
Arguments Measurement {n} m_size m_h m_r m_z.
Arguments m_size {n} _. Arguments m_h {n} _. Arguments m_r {n} _. Arguments m_z {n} _.
Definition trusted {n} (m : measurement n) : Prop := symmetric (m_r m) /\ pd (m_r m).

(** all the measurements together: what was believed at the start, and each measurement *)
Fixpoint total_misfit {n} (ms : seq (measurement n)) (x : 'cV[R]_n) : R :=
  match ms with
  | [::] => 0
  | m :: rest => Rplus (variance (invmx (m_r m)) (m_z m - m_h m *m x)%R) (total_misfit rest x)
  end.
(** inverse of the covariance that all the measurements together leave *)
Fixpoint information {n} (ms : seq (measurement n)) : 'M[R]_n :=
  match ms with [::] => 0%R | m :: rest => ((m_h m)^T *m invmx (m_r m) *m m_h m + information rest)%R end.
