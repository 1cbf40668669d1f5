(** C162. *)
From Coq Require Import Reals ZArith Lra.
From mathcomp Require Import all_ssreflect ssralg matrix.
From Verif Require Import Rfield RealMath ConvertModel InsModel FusionBase KalmanModel KalmanSpec KalmanProofs FusionModel FusionProofs FusionRest FusionCases
  InnovationProofs JacobianSpec JacobianMatrix AccuracySpec AccuracyProofs SharpSpec.
Import GRing.Theory.
Local Open Scope ring_scope.

Lemma dot_pos n (w : 'cV[R]_n) : w <> 0 -> Rlt 0 ((w^T *m w) ord0 ord0).
Proof. move=> h. have := one_pd n w h. by rewrite /variance mulmx1. Qed.
Lemma variance_scale n (p : 'M[R]_n) (c : R) (x : 'cV[R]_n) : variance p (c *: x) = Rmult (Rmult c c) (variance p x).
Proof.
have E : forall y : 'cV[R]_n, (p *m (c *: y)) = c *: (p *m y) :> 'cV[R]_n by move=> y; rewrite -scalemxAr.
have T : (c *: x)^T = c *: x^T :> 'rV[R]_n by apply/matrixP => i j; rewrite !mxE.
rewrite /variance -!mulmxA E. rewrite [X in X *m _](T : _ = _). move: (x^T : 'rV[R]_n) (p *m x) => a b.
have -> : (c *: a *m (c *: b)) = c *: (c *: (a *m b)) :> 'M[R]_1 by rewrite -scalemxAl -scalemxAr.
rewrite mxE mxE. by rewrite -[LHS]/(Rmult c (Rmult c _)) -Rmult_assoc.
Qed.
Lemma variance_delta n (r : 'M[R]_n) j : variance r (delta_mx j ord0) = r j j.
Proof.
rewrite /variance trmx_delta -rowE mxE (bigD1 j) //= big1 ?addr0; first by rewrite !mxE !eqxx mulr1.
move=> k Hk. by rewrite !mxE (negbTE Hk) mulr0.
Qed.

Lemma div_mult (c d : R) : d <> IZR 0 -> Rmult (Rdiv c d) d = c.
Proof. move=> h. field. exact: h. Qed.

(** the row j of the measurement *)
Lemma update_row n m (k k' : kf n) (h : 'M[R]_(m, n)) z r (j : 'I_m) : symmetric (kP k) -> psd (kP k) -> symmetric r -> psd r ->
  kf_update k h z r = Some k' -> combined (variance (kP k) (h^T *m delta_mx j ord0)) (r j j) (variance (kP k') (h^T *m delta_mx j ord0)).
Proof.
move=> sp hp sr hr U. set w := h^T *m delta_mx j ord0. set a := variance (kP k) w. rewrite /combined.
have a0 : Rle 0 a := hp w. have r0 : Rle 0 (r j j) by rewrite -variance_delta; exact: hr.
have [Z|Z] := Req_dec (Rplus a (r j j)) 0.
  rewrite -[X in Rle X _]/(Rmult _ _) Z Rmult_0_r. exact: Rmult_le_pos.
case: (w =P 0) => [E|W].
  have -> : a = IZR 0 by rewrite /a E variance_zero. rewrite E variance_zero. rewrite -[X in Rle X _]/(Rmult (IZR 0) _). lra.
have ww := dot_pos _ _ W. set d := (w^T *m w) ord0 ord0 in ww.
pose c := Rdiv a (Rplus a (r j j)).
pose l : 'M[R]_(n, m) := (Rdiv c d) *: (w *m (delta_mx j ord0)^T).
have E1 : l^T *m w = c *: delta_mx j ord0.
  rewrite /l linearZ /= trmx_mul trmxK -scalemxAl -mulmxA (mx11_scalar (w^T *m w)) -/d mul_mx_scalar scalerA. congr (_ *: _).
  apply: div_mult. exact: Rgt_not_eq.
have E2 : (1%:M - l *m h)^T *m w = (Rminus 1 c) *: w.
  rewrite linearB /= trmx1 trmx_mul mulmxBl mul1mx -mulmxA E1 -scalemxAr -/w. by rewrite -[Rminus 1 c]/((1 : R) - c) scalerBl scale1r.
have B := update_optimal _ _ _ _ _ _ _ sp sr hp hr U l w.
rewrite /corrected variance_add !variance_conj E1 E2 !variance_scale variance_delta -/a in B.
have s0 : Rlt 0 (Rplus a (r j j)) by lra.
have -> : Rmult a (r j j) = Rmult (Rplus (Rmult (Rmult (Rminus 1 c) (Rminus 1 c)) a) (Rmult (Rmult c c) (r j j))) (Rplus a (r j j)).
  rewrite /c. field. lra.
exact: (Rmult_le_compat_r _ _ _ (Rlt_le _ _ s0) B).
Qed.
Lemma pick n m (A : 'M[R]_(m, n)) i j : (A *m (delta_mx i ord0 : 'cV[R]_n)) j ord0 = A j i.
Proof.
rewrite mxE (bigD1 i) //= big1 ?addr0; first by rewrite !mxE !eqxx mulr1.
move=> k Hk. by rewrite !mxE (negbTE Hk) mulr0.
Qed.
Lemma pick_row n m (A : 'M[R]_(m, n)) i j : ((delta_mx j ord0 : 'cV[R]_m)^T *m A) ord0 i = A j i.
Proof.
rewrite mxE (bigD1 j) //= big1 ?addr0; first by rewrite !mxE !eqxx mul1r.
move=> k Hk. by rewrite !mxE (negbTE Hk) mul0r.
Qed.
(** the quantity the row measures *)
Lemma row_quantity m (p : 'M[R]_15) (h : 'M[R]_(m, 15)) (j : 'I_m) (f : 'cV[R]_15 -> R) v :
  (forall e, f e = (h *m e) j ord0) -> variance_of p f v -> v = variance p (h^T *m delta_mx j ord0).
Proof.
move=> H [w [E ->]]. congr (variance p _). apply/matrixP => i z. rewrite ord1 {z}.
have := E (delta_mx i ord0). rewrite H pick (pick _ _ (w^T : 'rV[R]_15)) => F. have -> : w i ord0 = h j i by rewrite F mxE.
by rewrite (pick _ _ (h^T : 'M[R]_(15, m))) mxE.
Qed.
Lemma quantity_row m (p : 'M[R]_15) (h : 'M[R]_(m, 15)) (j : 'I_m) (f : 'cV[R]_15 -> R) :
  (forall e, f e = (h *m e) j ord0) -> variance_of p f (variance p (h^T *m delta_mx j ord0)).
Proof.
move=> H. exists (h^T *m delta_mx j ord0). split=> // e. by rewrite H trmx_mul trmxK -mulmxA pick_row.
Qed.
Lemma update_quantity m k k' (h : 'M[R]_(m, 15)) z r (j : 'I_m) f a a' : symmetric (kP k) -> psd (kP k) -> symmetric r -> psd r ->
  kf_update k h z r = Some k' -> (forall e, f e = (h *m e) j ord0) -> variance_of (kP k) f a -> variance_of (kP k') f a' ->
  combined a (r j j) a'.
Proof.
move=> sp hp sr hr U H A A'. rewrite (row_quantity _ _ _ _ _ _ H A) (row_quantity _ _ _ _ _ _ H A'). exact: update_row U.
Qed.
