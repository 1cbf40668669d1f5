(** What a covariance matrix is. *)
From Coq Require Import Reals.
From mathcomp Require Import all_ssreflect ssralg matrix.
From Verif Require Import Rfield.

Definition symmetric {n} (p : 'M[R]_n) : Prop := (p^T = p)%R.
(** variance of the linear combination of the states with coefficients x, for the covariance p *)
Definition variance {n} (p : 'M[R]_n) (x : 'cV[R]_n) : R := (x^T *m p *m x)%R ord0 ord0.
Definition psd {n} (p : 'M[R]_n) : Prop := forall x, Rle 0 (variance p x).
Definition pd {n} (p : 'M[R]_n) : Prop := forall x, x <> 0%R -> Rlt 0 (variance p x).
(** covariance of the estimate that a measurement with matrix h and noise r gives with any gain *)
Definition corrected {n m} (p : 'M[R]_n) (h : 'M[R]_(m, n)) (r : 'M[R]_m) (gain : 'M[R]_(n, m)) : 'M[R]_n :=
  ((1%:M - gain *m h) *m p *m (1%:M - gain *m h)^T + gain *m r *m gain^T)%R.
