(** Errors over many runs: mean squares, uncorrelated noise, and what the steps of the filter leave of them. *)
From Coq Require Import Reals.
From mathcomp Require Import all_ssreflect ssralg matrix.
From Verif Require Import Rfield KalmanModel KalmanSpec.
Local Open Scope ring_scope.

(** [I]: the runs, [w i]: the weight (probability) of run [i], [x i]: a vector in run [i] *)
Section Ensemble.
Variable I : finType.
Variable w : I -> R.
(** the number l_1 x_1 + ... + l_n x_n *)
Definition combination {n} (l x : 'cV[R]_n) : R := (l^T *m x) ord0 ord0.
(** the mean of its square *)
Definition mean_square {n} (x : I -> 'cV[R]_n) (l : 'cV[R]_n) : R := \sum_i (w i * (combination l (x i) * combination l (x i))).
(** its mean *)
Definition mean {n} (x : I -> 'cV[R]_n) (l : 'cV[R]_n) : R := \sum_i (w i * combination l (x i)).
(** the mean of the products is zero, whatever combinations are taken *)
Definition uncorrelated {n m} (x : I -> 'cV[R]_n) (v : I -> 'cV[R]_m) : Prop :=
  forall l k, \sum_i (w i * (combination l (x i) * combination k (v i))) = 0.

(** [below x p]: the mean squares of [x] are at most the variances for [p] *)
Definition below {n} (x : I -> 'cV[R]_n) (p : 'M[R]_n) : Prop := forall l, Rle (mean_square x l) (variance p l).
Definition matches {n} (x : I -> 'cV[R]_n) (p : 'M[R]_n) : Prop := forall l, mean_square x l = variance p l.

(** The covariance the filter holds, and in each run the true error of the states. A prediction moves the error with the same matrix and adds
    the noise [v]; a measurement is of the true error, with noise [v], and the estimate that the update computes from it is taken off
    (the filter's own error state is zero before each step, as after every feedback). [same]: the noises are as large as the filter is told,
    else at most as large. *)
Inductive history (same : bool) {n} (p0 : 'M[R]_n) (x0 : I -> 'cV[R]_n) : 'M[R]_n -> (I -> 'cV[R]_n) -> Prop :=
| H_start : history same p0 x0 p0 x0
| H_predict p x phi q v : history same p0 x0 p x -> uncorrelated x v -> (if same then matches v q else below v q) ->
    history same p0 x0 (kP (kf_predict (Kf 0 p) phi q)) (fun i => phi *m x i + v i)
| H_update p x p' m (h : 'M[R]_(m, n)) r v (k : I -> kf n) : history same p0 x0 p x -> uncorrelated x v -> (if same then matches v r else below v r) ->
    (forall i, kf_update (Kf 0 p) h (h *m x i + v i) r = Some (k i) /\ kP (k i) = p') ->
    history same p0 x0 p' (fun i => x i - kX (k i)).

(** as [history], with noises of which only the mean is known: it is zero, whatever the filter is told *)
Inductive centred {n} (p0 : 'M[R]_n) (x0 : I -> 'cV[R]_n) : 'M[R]_n -> (I -> 'cV[R]_n) -> Prop :=
| C_start : centred p0 x0 p0 x0
| C_predict p x phi q v : centred p0 x0 p x -> (forall l, mean v l = 0) ->
    centred p0 x0 (kP (kf_predict (Kf 0 p) phi q)) (fun i => phi *m x i + v i)
| C_update p x p' m (h : 'M[R]_(m, n)) r v (k : I -> kf n) : centred p0 x0 p x -> (forall l, mean v l = 0) ->
    (forall i, kf_update (Kf 0 p) h (h *m x i + v i) r = Some (k i) /\ kP (k i) = p') ->
    centred p0 x0 p' (fun i => x i - kX (k i)).
End Ensemble.
Arguments mean_square {I} w {n} x l.
Arguments mean {I} w {n} x l.
Arguments centred {I} w {n} p0 x0 _ _.
Arguments uncorrelated {I} w {n m} x v.
Arguments below {I} w {n} x p.
Arguments matches {I} w {n} x p.
Arguments history {I} w same {n} p0 x0 _ _.

(** two filters that run side by side with the same transition and measurement matrices: the first is told smaller or equal noise, starts
    with smaller or equal variances, and may get further measurements *)
Definition covariance {n} (p : 'M[R]_n) : Prop := symmetric p /\ psd p.
Definition smaller {n} (p p' : 'M[R]_n) : Prop := forall l, Rle (variance p l) (variance p' l).
Inductive better {n} : 'M[R]_n -> 'M[R]_n -> Prop :=
| B_start p p' : covariance p -> covariance p' -> smaller p p' -> better p p'
| B_predict p p' phi q q' : better p p' -> covariance q -> covariance q' -> smaller q q' ->
    better (kP (kf_predict (Kf 0 p) phi q)) (kP (kf_predict (Kf 0 p') phi q'))
| B_update p p' m (h : 'M[R]_(m, n)) r r' z z' k k' : better p p' -> covariance r -> covariance r' -> smaller r r' ->
    kf_update (Kf 0 p) h z r = Some k -> kf_update (Kf 0 p') h z' r' = Some k' -> better (kP k) (kP k')
| B_further p p' m (h : 'M[R]_(m, n)) r z k : better p p' -> covariance r -> kf_update (Kf 0 p) h z r = Some k -> better (kP k) p'.
