(** C165, C166: what the variances of the filter say about its errors. Model: KalmanModel. Specification: KalmanSpec, EnsembleSpec. *)
From Coq Require Import Reals Lra.
From mathcomp Require Import all_ssreflect ssralg matrix.
From Verif Require Import Rfield KalmanModel KalmanSpec KalmanProofs EnsembleSpec EnsembleProofs.
Import GRing.Theory.
Local Open Scope ring_scope.

(** ** C165 *)
(** noises and errors at the start are at most what the filter is told: then the mean square of every combination of the errors is at most
    the variance the filter holds for it, behind any number of predictions and measurements *)
Theorem C165_conservative : forall (I : finType) (w : I -> R) n (p0 p : 'M[R]_n) (x0 x : I -> 'cV[R]_n) (run : I),
  history w false p0 x0 p x -> (forall l, Rle (mean_square w x0 l) (variance p0 l)) ->
  forall l, Rle (mean_square w x l) (variance p l).
Proof. move=> I w n p0 p x0 x run H B. exact: (history_ok I w false n p0 x0 p x run H B). Qed.
(** they are exactly what it is told: then the variance is the mean square *)
Theorem C165_exact : forall (I : finType) (w : I -> R) n (p0 p : 'M[R]_n) (x0 x : I -> 'cV[R]_n) (run : I),
  history w true p0 x0 p x -> (forall l, mean_square w x0 l = variance p0 l) ->
  forall l, mean_square w x l = variance p l.
Proof. move=> I w n p0 p x0 x run H B. exact: (history_ok I w true n p0 x0 p x run H B). Qed.
(** noises with mean zero, whatever the filter is told of their size: errors with mean zero keep it *)
Theorem C165_unbiased : forall (I : finType) (w : I -> R) n (p0 p : 'M[R]_n) (x0 x : I -> 'cV[R]_n) (run : I),
  centred w p0 x0 p x -> (forall l, mean w x0 l = 0) -> forall l, mean w x l = 0.
Proof. move=> I w n p0 p x0 x run H B. exact: (centred_ok I w n p0 x0 p x run H B). Qed.
Print Assumptions C165_unbiased.
Print Assumptions C165_conservative.
Print Assumptions C165_exact.

(** four equally likely runs of one state: error and noise are one or minus one, independent of each other *)
Definition sign_of (b : bool) : 'cV[R]_1 := (if b then 1 else - 1)%:M.
Definition error (i : bool * bool) := sign_of i.1.
Definition noise (i : bool * bool) := sign_of i.2.
Definition quarter (_ : bool * bool) : R := Rdiv 1 4.
Lemma four (F : bool * bool -> R) : \sum_i F i = Rplus (Rplus (F (true, true)) (F (true, false))) (Rplus (F (false, true)) (F (false, false))).
Proof. rewrite (eq_bigr (fun i => F (i.1, i.2))); last by case. by rewrite -(pair_bigA _ (fun a b => F (a, b))) /= !big_bool. Qed.
Lemma four_ones (a : R) : Rplus (Rplus (Rmult (Rdiv 1 4) (Rmult a a)) (Rmult (Rdiv 1 4) (Rmult a a)))
  (Rplus (Rmult (Rdiv 1 4) (Rmult (Ropp a) (Ropp a))) (Rmult (Rdiv 1 4) (Rmult (Ropp a) (Ropp a)))) = Rmult a a.
Proof. by field. Qed.
Lemma four_turns (a : R) : Rplus (Rplus (Rmult (Rdiv 1 4) (Rmult a a)) (Rmult (Rdiv 1 4) (Rmult (Ropp a) (Ropp a))))
  (Rplus (Rmult (Rdiv 1 4) (Rmult a a)) (Rmult (Rdiv 1 4) (Rmult (Ropp a) (Ropp a)))) = Rmult a a.
Proof. by field. Qed.
Lemma four_mixed (a b : R) : Rplus (Rplus (Rmult (Rdiv 1 4) (Rmult a b)) (Rmult (Rdiv 1 4) (Rmult a (Ropp b))))
  (Rplus (Rmult (Rdiv 1 4) (Rmult (Ropp a) b)) (Rmult (Rdiv 1 4) (Rmult (Ropp a) (Ropp b)))) = 0%R.
Proof. change (Rplus (Rplus (Rmult (Rdiv 1 4) (Rmult a b)) (Rmult (Rdiv 1 4) (Rmult a (Ropp b)))) (Rplus (Rmult (Rdiv 1 4) (Rmult (Ropp a) b)) (Rmult (Rdiv 1 4) (Rmult (Ropp a) (Ropp b)))) = R0). by field. Qed.
Lemma half_of (a : R) : Rmult (Rdiv 1 2) (Rmult a a) = Rdiv (Rmult a a) 2.
Proof. by field. Qed.
Lemma comb_sign (l : 'cV[R]_1) b : combination l (sign_of b) = (if b then l ord0 ord0 else Ropp (l ord0 ord0)).
Proof.
rewrite /combination /sign_of mul_mx_scalar !mxE. case: b.
- change (Rmult 1 (l ord0 ord0) = l ord0 ord0). by lra.
- change (Rmult (Ropp 1) (l ord0 ord0) = Ropp (l ord0 ord0)). by lra.
Qed.
Lemma var_one (l : 'cV[R]_1) : variance 1%:M l = Rmult (l ord0 ord0) (l ord0 ord0).
Proof. by rewrite variance_one big_ord_recl big_ord0 addr0. Qed.
Example C165_case : exists p x, history quarter true 1%:M error p x /\ (forall l, mean_square quarter error l = variance 1%:M l) /\
  (forall l, mean_square quarter x l = Rdiv (Rmult (l ord0 ord0) (l ord0 ord0)) 2).
Proof.
have M l : mean_square quarter error l = variance 1%:M l.
  rewrite /mean_square four /= !comb_sign /= var_one. exact: four_ones.
have N l : mean_square quarter noise l = variance 1%:M l.
  rewrite /mean_square four /= !comb_sign /= var_one. exact: four_turns.
have U : uncorrelated quarter error noise.
  move=> l k. rewrite four /= !comb_sign /=. exact: four_mixed.
have K i : exists k, kf_update (Kf 0 1%:M) 1%:M (1%:M *m error i + noise i) 1%:M = Some k /\ kP k = (Rdiv 1 2)%:M.
  case: (unit_case 1 (1%:M *m error i + noise i)) => k [E [_ [_ [P _]]]]. by exists k.
have [k HK] : exists k : bool * bool -> kf 1, forall i, kf_update (Kf 0 1%:M) 1%:M (1%:M *m error i + noise i) 1%:M = Some (k i) /\ kP (k i) = (Rdiv 1 2)%:M.
  case: (K (true, true)) => a Ha; case: (K (true, false)) => b Hb; case: (K (false, true)) => c Hc; case: (K (false, false)) => d Hd.
  exists (fun i => if i.1 then (if i.2 then a else b) else (if i.2 then c else d)). by case=> [[] []].
have H := @H_update _ quarter true _ _ _ _ _ _ _ 1%:M 1%:M noise k (@H_start _ quarter true _ 1%:M error) U N HK.
do 2 eexists; split; first exact: H. split; first exact: M.
move=> l. rewrite (C165_exact _ _ _ _ _ _ _ (true, true) H M). rewrite /variance mul_mx_scalar -scalemxAl mxE mxE big_ord_recl big_ord0 addr0 mxE.
exact: half_of.
Qed.

Lemma four_out (a : R) : Rplus (Rplus (Rmult (Rdiv 1 4) a) (Rmult (Rdiv 1 4) a)) (Rplus (Rmult (Rdiv 1 4) (Ropp a)) (Rmult (Rdiv 1 4) (Ropp a))) = R0.
Proof. by field. Qed.
Lemma four_back (a : R) : Rplus (Rplus (Rmult (Rdiv 1 4) a) (Rmult (Rdiv 1 4) (Ropp a))) (Rplus (Rmult (Rdiv 1 4) a) (Rmult (Rdiv 1 4) (Ropp a))) = R0.
Proof. by field. Qed.
Example C165_unbiased_case : (forall l, mean quarter error l = 0) /\ exists p x, centred quarter 1%:M error p x /\ p <> 1%:M.
Proof.
split; first by move=> l; rewrite /mean four /= !comb_sign /=; exact: four_out.
have N l : mean quarter noise l = 0 by rewrite /mean four /= !comb_sign /=; exact: four_back.
do 2 eexists; split; first exact: (@C_predict _ quarter _ _ _ _ _ 1%:M 1%:M noise (@C_start _ quarter _ 1%:M error) N).
rewrite /= !mul1mx trmx1 => /matrixP/(_ ord0 ord0). rewrite !mxE /=. change (Rplus 1 1 = R1 -> False). lra.
Qed.

(** ** C166 *)
Theorem C166_better : forall n (p p' : 'M[R]_n), better p p' -> forall l, Rle (variance p l) (variance p' l).
Proof. by move=> n p p' /better_ok[_ [_ L]]. Qed.
Print Assumptions C166_better.
(** equal filters, of which the first gets a measurement of every state *)
Example C166_case : forall n, better ((Rdiv 1 2)%:M : 'M[R]_n) 1%:M.
Proof.
move=> n. case: (unit_case n (0 : 'cV[R]_n)) => k [E [S [P [<- _]]]].
have C : covariance (1%:M : 'M[R]_n) by split; [exact: S|exact: pd_psd].
apply: (B_further _ _ _ 1%:M 1%:M 0 k _ C E). by apply: B_start => // l; exact: Rle_refl.
Qed.
