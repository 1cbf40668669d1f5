(** Kalman filter steps: C20, C21. The covariance is over the reals, for every number of states n and measurements m. *)
From Coq Require Import Reals Lra.
From mathcomp Require Import all_ssreflect ssralg matrix.
From Verif Require Import Rfield KalmanModel KalmanSpec KalmanProofs.
Import GRing.Theory.
Local Open Scope ring_scope.

(** ** C20 *)
Theorem C20_predict : forall n (k : kf n) (phi q : 'M[R]_n),
  psd (kP k) -> psd q -> psd (kP (kf_predict k phi q)).
Proof. exact predict_psd. Qed.
Theorem C20_predict_symmetric : forall n (k : kf n) (phi q : 'M[R]_n),
  symmetric (kP k) -> symmetric q -> symmetric (kP (kf_predict k phi q)).
Proof. exact predict_symmetric. Qed.
Theorem C20_update : forall n m (k k' : kf n) (h : 'M[R]_(m, n)) (z : 'cV[R]_m) (r : 'M[R]_m),
  psd (kP k) -> psd r -> kf_update k h z r = Some k' -> psd (kP k').
Proof. exact update_psd. Qed.
Theorem C20_update_symmetric : forall n m (k k' : kf n) (h : 'M[R]_(m, n)) (z : 'cV[R]_m) (r : 'M[R]_m),
  symmetric (kP k) -> symmetric r -> kf_update k h z r = Some k' -> symmetric (kP k').
Proof. exact update_symmetric. Qed.
Theorem C20_update_defined : forall n m (k : kf n) (h : 'M[R]_(m, n)) (z : 'cV[R]_m) (r : 'M[R]_m),
  psd (kP k) -> pd r -> exists k', kf_update k h z r = Some k'.
Proof. exact update_defined. Qed.
Print Assumptions C20_predict.
Print Assumptions C20_predict_symmetric.
Print Assumptions C20_update.
Print Assumptions C20_update_symmetric.
Print Assumptions C20_update_defined.

(** ** C21: [corrected p h r l] is the covariance of the error of the estimate formed with gain l, so this says that
    the covariance the filter holds is not above that of any other linear estimate *)
Theorem C21_optimal : forall n m (k k' : kf n) (h : 'M[R]_(m, n)) (z : 'cV[R]_m) (r : 'M[R]_m),
  symmetric (kP k) -> symmetric r -> psd (kP k) -> psd r -> kf_update k h z r = Some k' ->
  forall (l : 'M[R]_(n, m)) (x : 'cV[R]_n), Rle (variance (kP k') x) (variance (corrected (kP k) h r l) x).
Proof. exact update_optimal. Qed.
Theorem C21_shrinks : forall n m (k k' : kf n) (h : 'M[R]_(m, n)) (z : 'cV[R]_m) (r : 'M[R]_m),
  symmetric (kP k) -> symmetric r -> psd (kP k) -> psd r -> kf_update k h z r = Some k' ->
  forall x, Rle (variance (kP k') x) (variance (kP k) x).
Proof. exact update_shrinks. Qed.
(** the estimate is that gain times the innovation, and the held covariance is the one of that gain *)
Theorem C21_gain : forall n m (k k' : kf n) (h : 'M[R]_(m, n)) (z : 'cV[R]_m) (r : 'M[R]_m),
  kf_update k h z r = Some k' -> exists l, kX k' = l *m z /\ kP k' = corrected (kP k) h r l.
Proof. exact update_gain. Qed.
Print Assumptions C21_optimal.
Print Assumptions C21_shrinks.
Print Assumptions C21_gain.
(** unit covariance, unit noise, every state measured: the covariance is halved *)
Example C21_case : forall n (z : 'cV[R]_n), exists k', kf_update (Kf 0 1%:M) 1%:M z 1%:M = Some k' /\
  symmetric (1%:M : 'M[R]_n) /\ pd (1%:M : 'M[R]_n) /\ kP k' = (Rdiv 1 2)%:M /\ kX k' = (Rdiv 1 2) *: z.
Proof. exact unit_case. Qed.
