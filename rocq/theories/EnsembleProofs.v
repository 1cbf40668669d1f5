(** The variance the filter holds against the mean square of the errors over many runs. *)
From Coq Require Import Reals Lra.
From mathcomp Require Import all_ssreflect ssralg matrix.
From Verif Require Import Rfield KalmanModel KalmanSpec KalmanProofs EnsembleSpec.
Import GRing.Theory.
Local Open Scope ring_scope.

Section Ensemble.
Variable I : finType.
Variable w : I -> R.
Notation below := (below w).
Notation matches := (matches w).
Notation history := (history w).
Lemma combination_mul n m (a : 'M[R]_(n, m)) l x : combination l (a *m x) = combination (a^T *m l) x.
Proof. by rewrite /combination trmx_mul trmxK mulmxA. Qed.
Lemma combination_add n (l x y : 'cV[R]_n) : combination l (x + y) = combination l x + combination l y.
Proof. by rewrite /combination mulmxDr mxE. Qed.
Lemma combination_sub n (l x y : 'cV[R]_n) : combination l (x - y) = combination l x - combination l y.
Proof. by rewrite /combination mulmxBr !mxE. Qed.
Lemma square_add (a b c : R) : a * ((b + c) * (b + c)) = a * (b * b) + (a * (b * c) + a * (b * c)) + a * (c * c).
Proof. change (Rmult a (Rmult (Rplus b c) (Rplus b c)) = Rplus (Rplus (Rmult a (Rmult b b)) (Rplus (Rmult a (Rmult b c)) (Rmult a (Rmult b c)))) (Rmult a (Rmult c c))). by lra. Qed.
Lemma mean_add n m (a : 'M[R]_n) (b : 'M[R]_(n, m)) x v l : uncorrelated w x v ->
  mean_square w (fun i => a *m x i + b *m v i) l = mean_square w x (a^T *m l) + mean_square w v (b^T *m l).
Proof.
move=> U. rewrite /mean_square.
rewrite (eq_bigr (fun i => w i * (combination (a^T *m l) (x i) * combination (a^T *m l) (x i)) +
  (w i * (combination (a^T *m l) (x i) * combination (b^T *m l) (v i)) + w i * (combination (a^T *m l) (x i) * combination (b^T *m l) (v i))) +
  w i * (combination (b^T *m l) (v i) * combination (b^T *m l) (v i)))); last by move=> i _; rewrite combination_add !combination_mul square_add.
by rewrite !big_split /= U !addr0.
Qed.

Lemma propagate n m (a : 'M[R]_n) (b : 'M[R]_(n, m)) x v p q : uncorrelated w x v ->
  (below x p -> below v q -> below (fun i => a *m x i + b *m v i) (a *m p *m a^T + b *m q *m b^T)) /\
  (matches x p -> matches v q -> matches (fun i => a *m x i + b *m v i) (a *m p *m a^T + b *m q *m b^T)).
Proof.
move=> U; split=> hx hv l; rewrite mean_add // variance_add !variance_conj.
- exact: (Rplus_le_compat _ _ _ _ (hx _) (hv _)).
- by rewrite hx hv.
Qed.
Lemma below_ext n (x y : I -> 'cV[R]_n) p : (forall i, x i = y i) -> below x p -> below y p.
Proof. by move=> E h l; move: (h l); rewrite /mean_square (eq_bigr _ (fun i _ => f_equal (fun z => w i * (combination l z * combination l z)) (E i))). Qed.
Lemma matches_ext n (x y : I -> 'cV[R]_n) p : (forall i, x i = y i) -> matches x p -> matches y p.
Proof. by move=> E h l; move: (h l); rewrite /mean_square (eq_bigr _ (fun i _ => f_equal (fun z => w i * (combination l z * combination l z)) (E i))). Qed.

Lemma update_same n m (p : 'M[R]_n) (h : 'M[R]_(m, n)) r p' (x : I -> 'cV[R]_n) v (k : I -> kf n) (i0 : I) :
  (forall i, kf_update (Kf 0 p) h (h *m x i + v i) r = Some (k i) /\ kP (k i) = p') ->
  exists g, p' = (1%:M - g *m h) *m p *m (1%:M - g *m h)^T + (- g) *m r *m (- g)^T /\
    forall i, x i - kX (k i) = (1%:M - g *m h) *m x i + (- g) *m v i.
Proof.
move=> U; exists (p *m h^T *m invmx (h *m p *m h^T + r)). split.
- case: (U i0) => /update_some[_ [_ E]] <-. by rewrite E /corrected /= linearN /= mulNmx mulmxN mulNmx opprK.
- move=> i; case: (U i) => /update_some[_ [-> _]] _ /=. set g := _ *m invmx _.
  by rewrite mulmxDr mulmxBl mul1mx mulNmx opprD addrA mulmxA.
Qed.
Lemma history_ok same n (p0 : 'M[R]_n) x0 p x (i0 : I) : history same p0 x0 p x ->
  if same then matches x0 p0 -> matches x p else below x0 p0 -> below x p.
Proof.
elim=> [|p1 x1 phi q v _ IH U V|p1 x1 p' m h r v k _ IH U V E]; first by case: same.
- case: same IH V => IH V H.
  + have := (propagate _ _ phi 1%:M _ _ _ q U).2 (IH H) V. rewrite mul1mx trmx1 mulmx1. by apply: matches_ext => i; rewrite mul1mx.
  + have := (propagate _ _ phi 1%:M _ _ _ q U).1 (IH H) V. rewrite mul1mx trmx1 mulmx1. by apply: below_ext => i; rewrite mul1mx.
- case: (update_same _ _ _ _ _ _ _ _ _ i0 E) => g [-> F].
  case: same IH V => IH V H.
  + have := (propagate _ _ (1%:M - g *m h) (- g) _ _ _ r U).2 (IH H) V. by apply: matches_ext => i; rewrite F.
  + have := (propagate _ _ (1%:M - g *m h) (- g) _ _ _ r U).1 (IH H) V. by apply: below_ext => i; rewrite F.
Qed.

Lemma mean_linear n m (a : 'M[R]_n) (b : 'M[R]_(n, m)) x v l :
  mean w (fun i => a *m x i + b *m v i) l = mean w x (a^T *m l) + mean w v (b^T *m l).
Proof.
rewrite /mean -big_split /=. apply: eq_bigr => i _. rewrite combination_add !combination_mul.
change (Rmult (w i) (Rplus (combination (a^T *m l) (x i)) (combination (b^T *m l) (v i))) =
  Rplus (Rmult (w i) (combination (a^T *m l) (x i))) (Rmult (w i) (combination (b^T *m l) (v i)))). by ring.
Qed.
Lemma mean_ext n (x y : I -> 'cV[R]_n) l : (forall i, x i = y i) -> mean w x l = mean w y l.
Proof. by move=> E; rewrite /mean; apply: eq_bigr => i _; rewrite E. Qed.
Lemma centred_ok n (p0 : 'M[R]_n) x0 p x (i0 : I) : centred w p0 x0 p x -> (forall l, mean w x0 l = 0) -> forall l, mean w x l = 0.
Proof.
move=> H B; elim: H => [//|p1 x1 phi q v _ IH V l|p1 x1 p' m h r v k _ IH V E l].
- rewrite -(mean_ext _ (fun i => phi *m x1 i + 1%:M *m v i)); last by move=> i; rewrite mul1mx.
  by rewrite mean_linear IH V addr0.
- case: (update_same _ _ _ _ _ _ _ _ _ i0 E) => g [_ F].
  by rewrite (mean_ext _ _ _ l F) mean_linear IH V addr0.
Qed.
End Ensemble.

Lemma better_ok n (p p' : 'M[R]_n) : better p p' -> covariance p /\ covariance p' /\ smaller p p'.
Proof.
elim=> {p p'} [p p' H H' L|p p' phi q q' _ [[s1 d1] [[s2 d2] L]] [t1 e1] [t2 e2] M|p p' m h r r' z z' k k' _ [[s1 d1] [[s2 d2] L]] [t1 e1] [t2 e2] M U U'|p p' m h r z k _ [[s1 d1] [H' L]] [t1 e1] U].
- by split.
- split; first by split; [exact: predict_symmetric|exact: predict_psd]. split; first by split; [exact: predict_symmetric|exact: predict_psd].
  move=> l; rewrite /= !variance_add !variance_conj; exact: (Rplus_le_compat _ _ _ _ (L _) (M _)).
- split; first by split; [exact: (update_symmetric _ _ _ _ _ _ _ _ t1 U)|exact: (update_psd _ _ _ _ _ _ _ _ e1 U)].
  split; first by split; [exact: (update_symmetric _ _ _ _ _ _ _ _ t2 U')|exact: (update_psd _ _ _ _ _ _ _ _ e2 U')].
  move=> l. case/update_some: (U') => _ [_ ->]. set g := _ *m invmx _.
  have X := update_optimal _ _ (Kf 0 p) _ _ _ _ s1 t1 d1 e1 U g l. refine (Rle_trans _ _ _ X _).
  rewrite /corrected !variance_add !variance_conj; exact: (Rplus_le_compat _ _ _ _ (L _) (M _)).
- split; first by split; [exact: (update_symmetric _ _ _ _ _ _ _ _ t1 U)|exact: (update_psd _ _ _ _ _ _ _ _ e1 U)].
  split=> // l. have X := update_shrinks _ _ (Kf 0 p) _ _ _ _ s1 t1 d1 e1 U l. exact: (Rle_trans _ _ _ X (L l)).
Qed.
