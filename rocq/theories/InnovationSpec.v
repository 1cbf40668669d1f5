(** The normalised innovation squared: the quantity that is chi-square distributed, with the covariance of the
    innovation the model predicts. *)
From Coq Require Import Reals.
From mathcomp Require Import all_ssreflect ssralg matrix.
From Verif Require Import Rfield.
Import GRing.Theory.
Local Open Scope ring_scope.

(** covariance of the innovation for the covariance p, the matrix h and the noise r *)
Definition innovation_cov {n m} (p : 'M[R]_n) (h : 'M[R]_(m, n)) (r : 'M[R]_m) : 'M[R]_m := h *m p *m h^T + r.
Definition normalised {m} (s : 'M[R]_m) (z : 'cV[R]_m) : R := (z^T *m invmx s *m z) ord0 ord0.
