(** The Kalman filter update in information form. *)
From Coq Require Import Reals Lra Classical_Prop Permutation.
From mathcomp Require Import all_ssreflect ssralg matrix mxalgebra.
From Verif Require Import Rfield KalmanModel KalmanSpec KalmanProofs InfoSpec InfoModel.
Import GRing.Theory.
Local Open Scope ring_scope.

Lemma trmx_invmx n (a : 'M[R]_n) : (invmx a)^T = invmx a^T.
Proof. exact: trmx_inv. Qed.
Lemma invmx_symmetric n (a : 'M[R]_n) : symmetric a -> symmetric (invmx a).
Proof. by move=> h; rewrite /symmetric trmx_inv h. Qed.
Lemma invmx_pd n (a : 'M[R]_n) : symmetric a -> pd a -> pd (invmx a).
Proof.
move=> sa ha x hx. have ua := pd_unit _ _ ha.
have E : variance (invmx a) x = variance a (invmx a *m x).
  by rewrite /variance trmx_mul (invmx_symmetric _ _ sa) -!mulmxA (mulmxA a) mulmxV // mul1mx.
rewrite E; apply: ha => h; apply: hx. by rewrite -[x](mulKVmx ua) h mulmx0.
Qed.
Lemma inverse_is n (a b : 'M[R]_n) : a *m b = 1%:M -> b \in unitmx /\ invmx b = a.
Proof.
move=> h; have [_ ub] := mulmx1_unit h; split=> //.
by rewrite -[a]mulmx1 -(mulmxV ub) mulmxA h mul1mx.
Qed.

Section Update.
Variables (n m : nat) (p : 'M[R]_n) (h : 'M[R]_(m, n)) (r : 'M[R]_m).
Hypotheses (sp : symmetric p) (sr : symmetric r) (hp : pd p) (hr : pd r).
Let s := h *m p *m h^T + r.
Let g := p *m h^T *m invmx s.
Let up : p \in unitmx. Proof. exact: pd_unit. Qed.
Let ur : r \in unitmx. Proof. exact: pd_unit. Qed.
Let us : s \in unitmx. Proof. apply/pd_unit/innovation_pd => //; exact: pd_psd. Qed.
Let ss : s^T = s. Proof. apply: symmetric_add => //; exact: symmetric_conj. Qed.

Lemma corrected_short : corrected p h r g = p - g *m h *m p.
Proof.
have E := corrected_gain _ _ p h r 0 sp sr us. rewrite corrected_zero -/s -/g in E.
have -> : corrected p h r g = p - g *m s *m g^T.
  rewrite {2}E -/g sub0r. rewrite linearN /= mulNmx mulmxN mulNmx opprK.
  by rewrite addrK.
congr (_ - _). rewrite -!mulmxA; congr (_ *m _).
by rewrite /g !trmx_mul trmxK trmx_inv ss sp mulKVmx.
Qed.

Lemma corrected_info_l : (invmx p + h^T *m invmx r *m h) *m corrected p h r g = 1%:M.
Proof.
rewrite corrected_short mulmxDl !mulmxBr mulVmx // /g !mulmxA mulVmx // mul1mx.
have E : h^T *m invmx r *m h *m p *m h^T *m invmx s = h^T *m invmx r - h^T *m invmx s.
  have -> : h^T *m invmx r *m h *m p *m h^T = h^T *m invmx r *m (s - r).
    by rewrite /s addrK !mulmxA.
  rewrite mulmxBr mulmxBl -!mulmxA mulmxV // mulmx1.
  by rewrite (mulmxA (invmx r) r) mulVmx // mul1mx.
rewrite E mulmxBl mulmxBl opprB.
set A := h^T *m invmx s *m h *m p. set B := h^T *m invmx r *m h *m p.
by mxabel A B (1%:M : 'M[R]_n) (1%:M : 'M[R]_n).
Qed.

Lemma corrected_info : corrected p h r g \in unitmx /\ invmx (corrected p h r g) = invmx p + h^T *m invmx r *m h.
Proof. exact: (inverse_is _ _ _ corrected_info_l). Qed.

Lemma weight_gain : (invmx p + h^T *m invmx r *m h) *m g = h^T *m invmx r.
Proof.
rewrite mulmxDl.
have -> : invmx p *m g = h^T *m invmx s by rewrite /g !mulmxA mulVmx // mul1mx.
have -> : h^T *m invmx r *m h *m g = h^T *m invmx r *m (s - r) *m invmx s by rewrite /s addrK /g !mulmxA.
rewrite mulmxBr mulmxBl -!mulmxA mulmxV // mulmx1 (mulmxA (invmx r) r) mulVmx // mul1mx.
by rewrite addrC subrK.
Qed.
Lemma gain_info : g = corrected p h r g *m h^T *m invmx r.
Proof.
have [uc ic] := corrected_info.
by rewrite -mulmxA -weight_gain -ic mulmxA mulmxV // mul1mx.
Qed.

Lemma corrected_symmetric : symmetric (corrected p h r g).
Proof. apply: symmetric_add; exact: symmetric_conj. Qed.
Lemma info_pd : pd (invmx p + h^T *m invmx r *m h).
Proof.
move=> x hx; rewrite variance_add -{2}[h]trmxK variance_conj.
move: (invmx_pd _ _ sp hp x hx) (pd_psd _ _ (invmx_pd _ _ sr hr) (h^T^T *m x)); lra.
Qed.
Lemma corrected_pd : pd (corrected p h r g).
Proof.
have [uc ic] := corrected_info.
rewrite -[corrected _ _ _ _]invmxK ic. apply: invmx_pd; last exact: info_pd.
rewrite -ic; exact: invmx_symmetric corrected_symmetric.
Qed.

(** completing the square *)
Lemma variance_shift k (a : 'M[R]_k) (x y : 'cV[R]_k) : symmetric a ->
  variance a (x - y) = Rplus (Rminus (variance a x) (Rmult 2 ((x^T *m a *m y) ord0 ord0))) (variance a y).
Proof.
move=> sa. have E : (y^T *m a *m x) ord0 ord0 = (x^T *m a *m y) ord0 ord0.
  have F : (y^T *m a *m x)^T = x^T *m a *m y by rewrite !trmx_mul trmxK sa mulmxA.
  by rewrite -F [RHS]mxE.
rewrite /variance. have -> : (x - y)^T = x^T - y^T by rewrite linearB.
have -> : (x^T - y^T) *m a *m (x - y) = x^T *m a *m x - x^T *m a *m y - (y^T *m a *m x - y^T *m a *m y).
  rewrite mulmxBl mulmxBl !mulmxBr //.
have M (u v : 'M[R]_1) : (u - v) ord0 ord0 = Rminus (u ord0 ord0) (v ord0 ord0) by rewrite mxE [X in _ + X]mxE.
rewrite !M E.
set A := (_ ord0 ord0). set B := (_ ord0 ord0). set C := (_ ord0 ord0).
rewrite -?[@GRing.add _]/Rplus -?[@GRing.opp _]/Ropp /=; ring.
Qed.

Lemma misfit_square x0 z x : let best := x0 + g *m (z - h *m x0) in
  misfit p x0 h r z x = Rplus (misfit p x0 h r z best) (variance (invmx p + h^T *m invmx r *m h) (x - best)).
Proof.
move=> best. set y := z - h *m x0. set d := x - best. set w := invmx p + h^T *m invmx r *m h.
have [uc ic] := corrected_info.
have wg : w *m g = h^T *m invmx r.
  exact: weight_gain.
have E1 : x - x0 = d - (- (g *m y)) by rewrite opprK /d /best -/y opprD addrA subrK.
have E2 : best - x0 = g *m y by rewrite /best addrC addKr.
have E3 : z - h *m x = (z - h *m best) - h *m d by rewrite /d mulmxBr opprB addrA subrK.
have E4 : z - h *m best = y - h *m (g *m y).
  by rewrite /best mulmxDr opprD addrA.
rewrite /misfit E1 E2 E3.
have si := invmx_symmetric _ _ sp. have sri := invmx_symmetric _ _ sr.
rewrite (variance_shift _ _ d _ si) (variance_shift _ _ (z - h *m best) _ sri) (variance_add _ (invmx p)).
have V1 : variance (invmx p) (- (g *m y)) = variance (invmx p) (g *m y).
  rewrite /variance. have -> : (- (g *m y))^T = - (g *m y)^T by rewrite linearN.
  by rewrite !mulNmx mulmxN opprK.
have V2 : variance (h^T *m invmx r *m h) d = variance (invmx r) (h *m d).
  by rewrite -{2}[h]trmxK variance_conj trmxK.
have V3 : (d^T *m invmx p *m - (g *m y)) ord0 ord0 = - ((z - h *m best)^T *m invmx r *m (h *m d)) ord0 ord0.
  have X : (d^T *m invmx p *m (g *m y)) = ((z - h *m best)^T *m invmx r *m (h *m d))^T.
    have -> : ((z - h *m best)^T *m invmx r *m (h *m d))^T = d^T *m (h^T *m invmx r) *m y - d^T *m (h^T *m invmx r *m h *m g) *m y.
      by rewrite !trmx_mul trmxK sri E4 !mulmxBr !mulmxA.
    have -> : d^T *m (h^T *m invmx r) *m y = d^T *m (w *m g) *m y by rewrite wg.
    rewrite /w (mulmxDl (invmx p)) (mulmxDr d^T) (mulmxDl (d^T *m (invmx p *m g))) addrK !mulmxA. by [].
  by rewrite mulmxN X !mxE.
rewrite V1 V2 V3.
set A := variance _ _. set B := (_ ord0 ord0). set C := variance _ _. set D := variance _ _. set F := variance _ _.
rewrite -?[@GRing.opp _]/Ropp /=. ring.
Qed.
End Update.

(** ** the filter's update *)
Lemma update_info n m (k k' : kf n) (h : 'M[R]_(m, n)) z r :
  symmetric (kP k) -> symmetric r -> pd (kP k) -> pd r -> kf_update k h z r = Some k' ->
  symmetric (kP k') /\ pd (kP k') /\ invmx (kP k') = invmx (kP k) + h^T *m invmx r *m h /\
  kX k' = kP k' *m h^T *m invmx r *m z.
Proof.
move=> sp sr hp hr /update_some[hs [-> ->]].
split; first exact: corrected_symmetric. split; first exact: corrected_pd.
split; first by case: (corrected_info _ _ (kP k) h r sp sr hp hr).
by rewrite -gain_info.
Qed.

Lemma update_best n m (k k' : kf n) (h : 'M[R]_(m, n)) z r x0 x :
  symmetric (kP k) -> symmetric r -> pd (kP k) -> pd r -> kf_update k h (z - h *m x0) r = Some k' ->
  misfit (kP k) x0 h r z x = Rplus (misfit (kP k) x0 h r z (x0 + kX k')) (variance (invmx (kP k')) (x - (x0 + kX k'))).
Proof.
move=> sp sr hp hr H. case: (update_info _ _ _ _ _ _ _ sp sr hp hr H) => _ [_ [-> _]].
case: (update_some _ _ _ _ _ _ _ H) => hs [-> _].
exact: misfit_square.
Qed.

(** ** updates in a row, each correction being fed back into the estimate *)
Lemma run_defined n (ms : seq (measurement n)) x p : symmetric p -> pd p -> (forall m, List.In m ms -> trusted m) ->
  exists x' p', feed_all (x, p) ms = Some (x', p').
Proof.
elim: ms x p => [|m ms IH] x p sp hp H; first by exists x, p.
have [sr hr] : trusted m by apply: H; left.
have [k' E] := update_defined _ _ (Kf 0 p) (m_h m) (m_z m - m_h m *m x) (m_r m) (pd_psd _ _ hp) hr.
have [s' [h' _]] := update_info _ _ (Kf 0 p) _ _ _ _ sp sr hp hr E.
rewrite /= /feed E /=. apply: IH => // m' I; apply: H; by right.
Qed.

Lemma run_square n (ms : seq (measurement n)) x p x' p' : symmetric p -> pd p -> (forall m, List.In m ms -> trusted m) ->
  feed_all (x, p) ms = Some (x', p') ->
  symmetric p' /\ pd p' /\ invmx p' = invmx p + information ms /\
  exists c, forall y, Rplus (variance (invmx p) (y - x)) (total_misfit ms y) = Rplus c (variance (invmx p') (y - x')).
Proof.
elim: ms x p => [|m ms IH] x p sp hp H /=.
  move=> [<- <-]; split=> //; split=> //; split; first by rewrite addr0.
  exists R0 => y; rewrite /total_misfit Rplus_0_l. exact: Rplus_0_r.
have [sr hr] : trusted m by apply: H; left.
rewrite /feed /=; case E : (kf_update _ _ _ _) => [k'|//] /= F.
have [s' [h' [I _]]] := update_info _ _ (Kf 0 p) _ _ _ _ sp sr hp hr E.
have H' m' : List.In m' ms -> trusted m' by move=> ?; apply: H; right.
have [s2 [h2 [I2 [c C]]]] := IH _ _ s' h' H' F.
split=> //; split=> //; split; first by rewrite I2 I addrA.
exists (Rplus c (misfit p x (m_h m) (m_r m) (m_z m) (x + kX k'))) => y.
have B := update_best _ _ (Kf 0 p) _ _ _ _ x y sp sr hp hr E.
rewrite /misfit /= in B |- *. rewrite -Rplus_assoc B Rplus_assoc C.
move: (variance (invmx p) _) (variance (invmx (m_r m)) _) (variance (invmx p') _) => a b d; ring.
Qed.

Lemma run_least n (ms : seq (measurement n)) x p x' p' : symmetric p -> pd p -> (forall m, List.In m ms -> trusted m) ->
  feed_all (x, p) ms = Some (x', p') -> forall y, y <> x' ->
  Rlt (Rplus (variance (invmx p) (x' - x)) (total_misfit ms x')) (Rplus (variance (invmx p) (y - x)) (total_misfit ms y)).
Proof.
move=> sp hp H F y ny. have [s2 [h2 [_ [c C]]]] := run_square _ _ _ _ _ _ sp hp H F.
rewrite !C subrr variance_zero -[0%R]/R0.
have := invmx_pd _ _ s2 h2 (y - x') (fun e => ny (subr0_eq e)). lra.
Qed.

Lemma total_permuted n (a b : seq (measurement n)) y : Permutation a b -> total_misfit a y = total_misfit b y.
Proof. elim=> //= [m u v _ -> //|m m' u|u v w _ -> _ -> //]. move: (variance _ _) (variance _ _) (total_misfit _ _) => c d e. ring. Qed.
Lemma information_permuted n (a b : seq (measurement n)) : Permutation a b -> information a = information b.
Proof. elim=> //= [m u v _ -> //|m m' u|u v w _ -> _ -> //]. by rewrite !addrA [in LHS](addrC (_ *m _)). Qed.

Lemma run_order n (ms ms' : seq (measurement n)) x p : symmetric p -> pd p -> (forall m, List.In m ms -> trusted m) ->
  Permutation ms ms' -> feed_all (x, p) ms = feed_all (x, p) ms'.
Proof.
move=> sp hp H Q.
have H' m : List.In m ms' -> trusted m by move=> I; apply: H; apply: (Permutation_in _ (Permutation_sym Q)).
have [x1 [p1 F1]] := run_defined _ _ x _ sp hp H. have [x2 [p2 F2]] := run_defined _ _ x _ sp hp H'.
have [s1 [h1 [I1 _]]] := run_square _ _ _ _ _ _ sp hp H F1.
have [s2 [h2 [I2 _]]] := run_square _ _ _ _ _ _ sp hp H' F2.
rewrite F1 F2; congr (Some (_, _)); last first.
  by rewrite -[p1]invmxK -[p2]invmxK I1 I2 (information_permuted _ _ _ Q).
apply: NNPP => N.
have A := run_least _ _ _ _ _ _ sp hp H F1 x2 (fun e => N (esym e)).
have B := run_least _ _ _ _ _ _ sp hp H' F2 x1 N.
rewrite !(total_permuted _ _ _ _ Q) in A. lra.
Qed.

(** ** updates in a row *)
Lemma updates_info n (ms : seq (measurement n)) (k : kf n) : symmetric (kP k) -> pd (kP k) -> (forall m, List.In m ms -> trusted m) ->
  exists k', update_all k ms = Some k' /\ symmetric (kP k') /\ pd (kP k') /\ invmx (kP k') = invmx (kP k) + information ms.
Proof.
elim: ms k => [|m ms IH] k sp hp H; first by exists k; split=> //; split=> //; split=> //=; rewrite addr0.
have [sr hr] : trusted m by apply: H; left.
have [k' E] := update_defined _ _ k (m_h m) (m_z m) (m_r m) (pd_psd _ _ hp) hr.
have [s' [h' [I _]]] := update_info _ _ k _ _ _ _ sp sr hp hr E.
have H' m' : List.In m' ms -> trusted m' by move=> ?; apply: H; right.
have [k2 [E2 [s2 [h2 I2]]]] := IH _ s' h' H'.
exists k2; rewrite /= E; split=> //; split=> //; split=> //. by rewrite I2 I addrA.
Qed.
Lemma updates_order n (ms ms' : seq (measurement n)) (k k1 k2 : kf n) : symmetric (kP k) -> pd (kP k) -> (forall m, List.In m ms -> trusted m) ->
  Permutation ms ms' -> update_all k ms = Some k1 -> update_all k ms' = Some k2 -> kP k1 = kP k2.
Proof.
move=> sp hp H Q E1 E2.
have H' m : List.In m ms' -> trusted m by move=> I; apply: H; apply: (Permutation_in _ (Permutation_sym Q)).
have [a [A [_ [_ I1]]]] := updates_info _ _ _ sp hp H. have [b [B [_ [_ I2]]]] := updates_info _ _ _ sp hp H'.
rewrite E1 in A. rewrite E2 in B. case: A => A; case: B => B. rewrite -A in I1; rewrite -B in I2.
by rewrite -[kP k1]invmxK -[kP k2]invmxK I1 I2 (information_permuted _ _ _ Q).
Qed.
