(** Model of the installation-angle estimator, Src/DcmEstimator.cpp. *)
From Coq Require Import Reals List.
From Verif Require Import RealMath.
Import ListNotations.
Open Scope R_scope.

(** DcmEstimator.h: the members that are read again *)
Record estimator := Est { e_w : mat; e_dcm : mat; e_scale : R; e_sum_vf : R; e_error : R }.

(** DcmEstimator.cpp:61-67 *)
Definition new_estimator : estimator := Est (M 0 0 0 0 0 0 0 0 0) eye 1 0 0.

(** contract of Eigen::JacobiSVD with full U and V: both orthogonal, singular values non-negative in decreasing order.
    Which of the decompositions is returned is left open. *)
Definition is_svd (w u : mat) (s : vec) (v : mat) : Prop :=
  mmul (mtrans u) u = eye /\ mmul u (mtrans u) = eye /\ mmul (mtrans v) v = eye /\ mmul v (mtrans v) = eye /\
  vx s >= vy s /\ vy s >= vz s /\ vz s >= 0 /\ w = mmul (mmul u (mdiag s)) (mtrans v).

(** DcmEstimator.cpp:53-59: CalcDcmBySVD *)
Definition calc_dcm (w : mat) (sum : R) (err : R) (e' : estimator) : Prop :=
  exists u s v, is_svd w u s v /\
    e' = Est w (mmul v (mtrans u)) (vx s / (sum + / 10 ^ 30)) sum err.

(** W.col(0) += x *)
Definition add_col0 (w : mat) (x : vec) : mat :=
  M (m00 w + vx x) (m01 w) (m02 w) (m10 w + vy x) (m11 w) (m12 w) (m20 w + vz x) (m21 w) (m22 w).

(** the two Update functions: without and with a wheel speed (DcmEstimator.cpp:15-18, 25-29) *)
Inductive observation := NoOdo (vb : vec) | Odo (vb : vec) (vf : R).
(** DcmEstimator.cpp:15-18 Update(vb) and 25-29 Update(vb, vf) *)
Definition update (e : estimator) (o : observation) (e' : estimator) : Prop :=
  match o with
  | NoOdo vb => calc_dcm (add_col0 (e_w e) (vscale (vx vb) vb)) (e_sum_vf e) (e_error e) e'
  | Odo vb vf => calc_dcm (add_col0 (e_w e) (vscale vf vb)) (e_sum_vf e + vf * vf) (e_error e) e'
  end.
(** any sequence of calls of the two, from a new estimator *)
Inductive updates : list observation -> estimator -> Prop :=
| U_none : updates [] new_estimator
| U_one l e o e' : updates l e -> update e o e' -> updates (l ++ [o]) e'.
