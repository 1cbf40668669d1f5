(** Facts about the Kalman filter. *)
From Coq Require Import Reals Lra Classical_Prop.
From mathcomp Require Import all_ssreflect ssralg matrix mxalgebra.
From Verif Require Import Rfield KalmanModel KalmanSpec.
Import GRing.Theory.
Local Open Scope ring_scope.

(** identities of sums and differences of matrices, entry by entry *)
Ltac mxabel A B C D :=
  generalize A B C D; let a := fresh in let b := fresh in let c := fresh in let d := fresh in
  intros a b c d; apply/matrixP; let i := fresh in let j := fresh in intros i j; rewrite !mxE;
  move: (a i j) (b i j) (c i j) (d i j) => ? ? ? ?;
  rewrite -?[@GRing.add _]/Rplus -?[@GRing.opp _]/Ropp /=; ring.

Lemma variance_add n (p q : 'M[R]_n) x : variance (p + q) x = Rplus (variance p x) (variance q x).
Proof. by rewrite /variance mulmxDr mulmxDl mxE. Qed.
Lemma variance_sub n (p q : 'M[R]_n) x : variance (p - q) x = Rminus (variance p x) (variance q x).
Proof. by rewrite /variance mulmxBr mulmxBl !mxE. Qed.
Lemma variance_conj n m (a : 'M[R]_(n, m)) (p : 'M[R]_m) x : variance (a *m p *m a^T) x = variance p (a^T *m x).
Proof. by rewrite /variance trmx_mul trmxK !mulmxA. Qed.
Lemma variance_zero n (p : 'M[R]_n) : variance p 0 = 0.
Proof. by rewrite /variance trmx0 !mul0mx mxE. Qed.

Lemma psd_add n (p q : 'M[R]_n) : psd p -> psd q -> psd (p + q).
Proof. move=> hp hq x; rewrite variance_add; move: (hp x) (hq x); lra. Qed.
Lemma psd_conj n m (a : 'M[R]_(n, m)) (p : 'M[R]_m) : psd p -> psd (a *m p *m a^T).
Proof. move=> hp x; rewrite variance_conj; exact: hp. Qed.
Lemma pd_psd n (p : 'M[R]_n) : pd p -> psd p.
Proof. move=> hp x; case: (x =P 0) => [->|H]; first by rewrite variance_zero; apply: Rle_refl. exact/Rlt_le/hp. Qed.

Lemma symmetric_conj n m (a : 'M[R]_(n, m)) (p : 'M[R]_m) : symmetric p -> symmetric (a *m p *m a^T).
Proof. by move=> hp; rewrite /symmetric !trmx_mul trmxK hp mulmxA. Qed.
Lemma symmetric_add n (p q : 'M[R]_n) : symmetric p -> symmetric q -> symmetric (p + q).
Proof. by move=> hp hq; rewrite /symmetric linearD /= hp hq. Qed.

Lemma predict_symmetric n (k : kf n) phi q : symmetric (kP k) -> symmetric q -> symmetric (kP (kf_predict k phi q)).
Proof. move=> hp hq; apply: symmetric_add => //; exact: symmetric_conj. Qed.
Lemma predict_psd n (k : kf n) phi q : psd (kP k) -> psd q -> psd (kP (kf_predict k phi q)).
Proof. move=> hp hq; apply: psd_add => //; exact: psd_conj. Qed.

Lemma update_some n m (k k' : kf n) (h : 'M[R]_(m, n)) z r : kf_update k h z r = Some k' ->
  let s := h *m kP k *m h^T + r in let gain := kP k *m h^T *m invmx s in
  s \in unitmx /\ kX k' = gain *m z /\ kP k' = corrected (kP k) h r gain.
Proof. by rewrite /kf_update; case: ifP => // hs [<-]. Qed.

Lemma update_symmetric n m (k k' : kf n) (h : 'M[R]_(m, n)) z r :
  symmetric (kP k) -> symmetric r -> kf_update k h z r = Some k' -> symmetric (kP k').
Proof. move=> hp hr /update_some[_ [_ ->]]; apply: symmetric_add; exact: symmetric_conj. Qed.
Lemma update_psd n m (k k' : kf n) (h : 'M[R]_(m, n)) z r :
  psd (kP k) -> psd r -> kf_update k h z r = Some k' -> psd (kP k').
Proof. move=> hp hr /update_some[_ [_ ->]]; apply: psd_add; exact: psd_conj. Qed.

(** a positive definite matrix is invertible *)
Lemma pd_unit n (p : 'M[R]_n) : pd p -> p \in unitmx.
Proof.
move=> hp; rewrite -row_free_unit -kermx_eq0; apply/eqP/row_matrixP => i; rewrite row0.
set v := row i _. have hv : v *m p = 0 by apply/eqP; rewrite -sub_kermx row_sub.
case: (v^T =P 0) => [/(congr1 trmx)|hn]; first by rewrite trmxK trmx0.
move: (hp _ hn). rewrite /variance trmxK hv mul0mx mxE => h; case: (Rlt_irrefl _ h).
Qed.
Lemma innovation_pd n m (p : 'M[R]_n) (h : 'M[R]_(m, n)) r : psd p -> pd r -> pd (h *m p *m h^T + r).
Proof.
move=> hp hr x hx; rewrite variance_add. move: (hr x hx) (psd_conj _ _ h p hp x); lra.
Qed.
Lemma update_defined n m (k : kf n) (h : 'M[R]_(m, n)) z r : psd (kP k) -> pd r ->
  exists k', kf_update k h z r = Some k'.
Proof.
move=> hp hr; rewrite /kf_update (pd_unit _ _ (innovation_pd _ _ _ h r hp hr)). by eexists.
Qed.

(** covariance with an arbitrary gain against the one with the filter's gain *)
Lemma corrected_gain n m (p : 'M[R]_n) (h : 'M[R]_(m, n)) r (l : 'M[R]_(n, m)) :
  symmetric p -> symmetric r -> let s := h *m p *m h^T + r in s \in unitmx ->
  let g := p *m h^T *m invmx s in
  corrected p h r l = corrected p h r g + (l - g) *m s *m (l - g)^T.
Proof.
move=> hp hr s hs g.
have hsT : s^T = s by apply: symmetric_add => //; exact: symmetric_conj.
have gs : g *m s = p *m h^T by rewrite /g -mulmxA mulVmx // mulmx1.
have sg : s *m g^T = h *m p by rewrite -[s in s *m _]hsT -trmx_mul gs trmx_mul trmxK hp.
have E a : corrected p h r a = p - a *m (s *m g^T) - (g *m s) *m a^T + a *m s *m a^T.
  have E1 : (1%:M - a *m h) *m p *m (1%:M - a *m h)^T
            = p - a *m (h *m p) - (p *m h^T) *m a^T + a *m (h *m p *m h^T) *m a^T.
    rewrite linearB /= trmx1 trmx_mul mulmxBl mul1mx mulmxBr mulmx1 mulmxBl !mulmxA.
    set A := a *m h *m p. set B := p *m h^T *m a^T. set C := A *m _ *m _.
    by mxabel A B C p.
  rewrite /corrected E1 gs sg /s mulmxDr mulmxDl !mulmxA.
  by rewrite -!addrA.
have -> : (l - g)^T = l^T - g^T by rewrite linearB.
rewrite !E mulmxBl mulmxBr !mulmxBl !mulmxA.
set A := g *m s *m g^T. set B := l *m s *m g^T. set C := g *m s *m l^T. set D := l *m s *m l^T.
by mxabel A B C D.
Qed.

Lemma corrected_zero n m (p : 'M[R]_n) (h : 'M[R]_(m, n)) r : corrected p h r 0 = p.
Proof. by rewrite /corrected mul0mx subr0 trmx1 mul1mx mulmx1 !mul0mx addr0. Qed.

Lemma update_optimal n m (k k' : kf n) (h : 'M[R]_(m, n)) z r : symmetric (kP k) -> symmetric r -> psd (kP k) -> psd r ->
  kf_update k h z r = Some k' -> forall l x, Rle (variance (kP k') x) (variance (corrected (kP k) h r l) x).
Proof.
move=> sp sr hp hr /update_some[hs [_ ->]] l x.
have hS : psd (h *m kP k *m h^T + r) by apply: psd_add => //; exact: psd_conj.
rewrite (corrected_gain _ _ _ h r l sp sr hs) variance_add.
move: (psd_conj _ _ (l - kP k *m h^T *m invmx (h *m kP k *m h^T + r)) _ hS x).
set a := variance _ x. set b := variance _ x. change (Rle 0 a -> Rle b (Rplus b a)). lra.
Qed.
Lemma update_shrinks n m (k k' : kf n) (h : 'M[R]_(m, n)) z r : symmetric (kP k) -> symmetric r -> psd (kP k) -> psd r ->
  kf_update k h z r = Some k' -> forall x, Rle (variance (kP k') x) (variance (kP k) x).
Proof.
move=> sp sr hp hr hu x. have E := corrected_zero _ _ (kP k) h r. rewrite -[X in Rle _ (variance X _)]E. exact: (update_optimal _ _ _ _ _ _ _ sp sr hp hr hu 0 x).
Qed.

Lemma update_gain n m (k k' : kf n) (h : 'M[R]_(m, n)) (z : 'cV[R]_m) (r : 'M[R]_m) :
  kf_update k h z r = Some k' -> exists l, kX k' = l *m z /\ kP k' = corrected (kP k) h r l.
Proof. by move=> /update_some[_ [-> ->]]; eexists. Qed.

Lemma sum_squares (I : Type) (s : seq I) (F : I -> R) : Rle 0 (\sum_(i <- s) (F i * F i)).
Proof.
elim: s => [|i s IH]; first by rewrite big_nil; apply: Rle_refl.
rewrite big_cons. move: IH; set b := \sum_(_ <- _) _. change (Rle 0 b -> Rle 0 (Rplus (Rmult (F i) (F i)) b)). move: (Rle_0_sqr (F i)); rewrite /Rsqr; lra.
Qed.
Lemma variance_one n (x : 'cV[R]_n) : variance 1%:M x = \sum_i (x i ord0 * x i ord0).
Proof. by rewrite /variance mulmx1 mxE; apply: eq_bigr => i _; rewrite mxE. Qed.
Lemma one_pd n : pd (1%:M : 'M[R]_n).
Proof.
move=> x hx. rewrite variance_one.
have [i hi] : exists i, x i ord0 <> 0.
  apply: Classical_Prop.NNPP => H; apply: hx; apply/matrixP => i j; rewrite mxE (ord1 j). apply: Classical_Prop.NNPP => H'; apply: H; by exists i.
rewrite (bigD1 i) //=. rewrite -big_filter.
move: (sum_squares _ [seq i0 <- index_enum (ordinal_finType n) | i0 != i] (fun i => x i ord0)).
set b := \sum_(_ <- _) _. change (Rle 0 b -> Rlt 0 (Rplus (Rmult (x i ord0) (x i ord0)) b)).
have := Rsqr_pos_lt _ hi. rewrite /Rsqr; lra.
Qed.
Lemma unit_case n (z : 'cV[R]_n) : exists k', kf_update (Kf 0 1%:M) 1%:M z 1%:M = Some k' /\
  symmetric (1%:M : 'M[R]_n) /\ pd (1%:M : 'M[R]_n) /\ kP k' = (Rdiv 1 2)%:M /\ kX k' = (Rdiv 1 2) *: z.
Proof.
have E2 : 1%:M *m 1%:M *m 1%:M^T + 1%:M = (Rplus 1 1)%:M :> 'M[R]_n by rewrite trmx1 !mulmx1 -raddfD.
have U2 : (Rplus 1 1)%:M \in @unitmx R_comUnitRingType n.
  rewrite -scalemx1 unitmxZ ?unitmx1 //. apply/eqP. exact: Rtwo_neq0.
have I2 : invmx ((Rplus 1 1)%:M : 'M[R]_n) = (Rdiv 1 2)%:M.
  apply: (can_inj (mulKmx U2)). rewrite mulmxV // -scalar_mxM; congr (_%:M). exact: Rtwo_half.
rewrite /kf_update E2 U2 I2 /=. eexists; split; first by [].
split; first exact: trmx1. split; first exact: one_pd.
rewrite trmx1 !mul1mx mulmx1 /=; split; last exact: mul_scalar_mx.
rewrite ?mulmx1.
have -> : 1%:M - (Rdiv 1 2)%:M = (Rplus 1 (Ropp (Rdiv 1 2)))%:M :> 'M[R]_n by apply/matrixP => i j; rewrite !mxE -mulrnBl.
rewrite !tr_scalar_mx -!scalar_mxM -raddfD /=; congr (_%:M).
exact: Rhalves.
Qed.
