(** The covariance of the running filter is not always positive semidefinite. *)
From Coq Require Import Reals ZArith List Lia Lra.
From mathcomp Require Import all_ssreflect ssralg matrix.
From Verif Require Import RealMath EarthModel ConvertModel SmoothModel InsModel InsProofs FusionBase Rfield KalmanModel KalmanSpec KalmanProofs FusionModel FusionSpec FusionProofs FusionFeed.
Import GRing.Theory.
Local Open Scope ring_scope.

Lemma diag_entry n f (i j : 'I_n) : i != j -> @diagonal n f i j = 0.
Proof. by move=> h; rewrite mxE (negbTE h). Qed.
Lemma mul_diag_r n m (a : 'M[R]_(m, n)) f i k : (a *m diagonal f) i k = a i k * @diagonal n f k k.
Proof.
rewrite mxE (bigD1 k) //= big1 ?addr0 // => l hl. by rewrite diag_entry // mulr0.
Qed.
Lemma mul_diag_l n m (a : 'M[R]_(n, m)) f i k : (diagonal f *m a) i k = @diagonal n f i i * a i k.
Proof.
rewrite mxE (bigD1 i) //= big1 ?addr0 // => l hl. by rewrite diag_entry ?mul0r // eq_sym.
Qed.
Lemma diag_zero n f : (forall b, f b = vzero) -> @diagonal n f = 0.
Proof. move=> h; apply/matrixP => i j; rewrite !mxE h. case: eqP => // _. by case: (_ %% _)%N => [|[|k]]. Qed.

(** state number k *)
Definition st (k : nat) : 'I_15 := inord k.
Lemma st_val k : (k < 15)%N -> st k = k :> nat.
Proof. exact: inordK. Qed.

Lemma noise_entry phi f dt i j : symmetric (@diagonal 15 f) ->
  process_noise phi (diagonal f) dt i j =
  Rmult dt (Rmult (Rdiv 1 2) (Rplus (Rmult (phi i j) (@diagonal 15 f j j)) (Rmult (@diagonal 15 f i i) (phi j i)))).
Proof.
move=> _. rewrite /process_noise mxE [X in _ * X]mxE [X in _ * (_ * X)]mxE mul_diag_r mul_diag_l [phi^T _ _]mxE. by [].
Qed.

(** with states and noise uncorrelated, the first epoch gives position and velocity a covariance although the position has
    no variance *)
Lemma unit_variance n (p : 'M[R]_n) (x : 'cV[R]_n) i j (a b : R) : i != j -> symmetric p ->
  x = a *: delta_mx i ord0 + b *: delta_mx j ord0 ->
  variance p x = Rplus (Rmult (Rmult a a) (p i i)) (Rplus (Rmult (Rmult b b) (p j j)) (Rmult (Rmult 2 (Rmult a b)) (p i j))).
Proof.
move=> hij hp ->. rewrite /variance.
have E k l : ((delta_mx k ord0 : 'cV[R]_n)^T *m p *m (delta_mx l ord0 : 'cV[R]_n)) ord0 ord0 = p k l.
  rewrite trmx_delta -rowE -colE. by rewrite !mxE.
have S : p j i = p i j by rewrite -{1}hp mxE.
have Z k : p i k = (row i p) ord0 k by rewrite mxE.
set u : 'cV[R]_n := delta_mx i ord0. set v : 'cV[R]_n := delta_mx j ord0.
have F (y z : 'cV[R]_n) c d w : (y^T *m p *m (c *: z + d *: w)) ord0 ord0 = c * (y^T *m p *m z) ord0 ord0 + d * (y^T *m p *m w) ord0 ord0.
  by rewrite mulmxDr -!scalemxAr !mxE.
have G (y z w : 'cV[R]_n) c d : ((c *: y + d *: z)^T *m p *m w) ord0 ord0 = c * (y^T *m p *m w) ord0 ord0 + d * (z^T *m p *m w) ord0 ord0.
  by rewrite linearD /= !linearZ /= !mulmxDl -!scalemxAl !mxE.
rewrite F !G /u /v !E S.
change (Rplus (Rmult a (Rplus (Rmult a (p i i)) (Rmult b (p i j)))) (Rmult b (Rplus (Rmult a (p i j)) (Rmult b (p j j)))) =
  Rplus (Rmult (Rmult a a) (p i i)) (Rplus (Rmult (Rmult b b) (p j j)) (Rmult (Rmult 2 (Rmult a b)) (p i j)))). ring.
Qed.

Lemma psd_zero n (p : 'M[R]_n) i j : symmetric p -> psd p -> p i i = 0 -> p i j = 0.
Proof.
move=> sp hp h0. case: (i =P j) => [<-|/eqP hij] //.
case: (Req_EM_T (p i j) 0) => [->|N] //; exfalso.
pose t := Ropp (Rdiv (Rplus (p j j) 1) (Rmult 2 (p i j))).
move: (hp (t *: delta_mx i ord0 + 1 *: delta_mx j ord0)). rewrite (unit_variance _ _ _ i j t 1 hij sp erefl) h0.
rewrite /t. move: (p j j) (p i j) N => a b N. clear -N.
change (Rle 0 (Rplus (Rmult (Rmult (Ropp (Rdiv (Rplus a 1) (Rmult 2 b))) (Ropp (Rdiv (Rplus a 1) (Rmult 2 b)))) 0)
  (Rplus (Rmult (Rmult 1 1) a) (Rmult (Rmult 2 (Rmult (Ropp (Rdiv (Rplus a 1) (Rmult 2 b))) 1)) b))) -> False).
exact: real_fact1.
Qed.

Lemma forward_dt i x j : forward i x = Some j -> s_dt j = s_dt i.
Proof.
rewrite /forward /mechanise => /(bindP _ _ _)[t /(bindP _ _ _)[s1 h1 /(bindP _ _ _)[s2 h2 /(bindP _ _ _)[s3 h3 [<-]]]] [<-]] /=.
have -> : s_dt s3 = s_dt s2 by move: h3; rewrite /position_update => /(bindP _ _ _)[ll _ /(bindP _ _ _)[w _ [<-]]].
have -> : s_dt s2 = s_dt s1.
  move: h2; rewrite /velocity_update; case: Req_EM_T => // _ /(bindP _ _ _)[w _ [<-]]. by [].
move: h1; rewrite /extrapolate => /(bindP _ _ _)[w _ /(bindP _ _ _)[ll _ /(bindP _ _ _)[w2 _ [<-]]]]. by [].
Qed.
Lemma feedback_dt i x j : feedback i x = Some j -> s_dt j = s_dt i.
Proof. rewrite /feedback; case: ifP => // _ /(bindP _ _ _)[ll _ [<-]]. by []. Qed.
Lemma time_update_dt s x t : time_update s x = Some t -> s_dt (f_ins t) = s_dt (f_ins s).
Proof.
move=> /time_update_split[s1 [s2 [s3 [s4 [h1 h2 h3 h4 ->]]]]] /=.
have [_ [dn _]] := nhc_step_spec _ _ h4. have [_ [cn _]] := zupt_step_spec _ _ h3.
have [sm [i [phi [_ b2 _ b4]]]] := propagate_spec _ _ _ h2.
have -> : s_dt (f_ins s4) = s_dt (f_ins s3) by rewrite dn; case: ifP.
have -> : s_dt (f_ins s3) = s_dt (f_ins s2) by rewrite cn; do ?[case: ifP => _].
rewrite b4 /= (forward_dt _ _ _ b2). have [_ [ti _ _]] := take_spec s. rewrite -ti.
move: h1; rewrite /feed; case: ifP => _; last by case=> <-. by move=> /(bindP _ _ _)[j /feedback_dt hj [<-]].
Qed.

Lemma first_epoch s0 nav o s x t : (0 <= f_flag s0)%Z -> unconstrained o ->
  initialize s0 nav o = Some s -> time_update s x = Some t ->
  let phi : 'M[R]_15 := blocks (phi_block (f_ins t) (o_gt_corr o) (o_at_corr o)) in
  let d : 'M[R]_15 := diagonal (std_diag nav o) in
  s_dt (f_ins t) = Rdiv 1 (o_rate o) /\ o_rate o <> IZR 0 /\ f_opt t = o /\ f_flag t = 0%Z /\
  kP (f_kf t) = phi *m (d *m d) *m phi^T + process_noise phi (diagonal (Q0_diag o)) (Rdiv 1 (o_rate o)).
Proof.
move=> hf [q1 q2] hi ht phi d. have [i1 [i2 [i3 i4]]] := initialize_start _ _ _ _ hi.
have ho : f_opt t = o by have [_ [-> _]] := time_update_counts _ _ _ ht.
have hd : s_dt (f_ins t) = Rdiv 1 (o_rate o).
  rewrite (time_update_dt _ _ _ ht). by move: hi; rewrite /initialize; case: ifP => // _ [<-].
have hr : o_rate o <> IZR 0.
  move: hi; rewrite /initialize /is_zero. by case: Req_EM_T => //.
have fs : (0 <= f_flag s)%Z by rewrite i3.
have [_ [_ b3]] := time_update_flags _ _ _ fs ht.
have z1 : zupt_due t = false by rewrite /zupt_due ho q1 andbF.
have z2 : nhc_due t = false by rewrite /nhc_due ho; case: q2 => ->; rewrite ?andbF.
have [f0 [p pe ->]] := b3 z1 z2. rewrite hd.
have -> : p = phi by move: pe; rewrite ho /transfer; case: ifP => // _ [<-].
by move: hi; rewrite /initialize; case: ifP => // _ [<-].
Qed.

(** rows of the transition matrix *)
Lemma phi_entry i gt at' (r c : 'I_15) : (blocks (phi_block i gt at') : 'M[R]_15) r c =
  entry (phi_block i gt at' (r %/ 3)%N (c %/ 3)%N) (r %% 3)%N (c %% 3)%N.
Proof. by rewrite mxE. Qed.

(** no variance, but covariance *)
Lemma first_epoch_not_psd s0 nav o s x t : (0 <= f_flag s0)%Z -> unconstrained o ->
  n_pos_std nav = vzero -> n_vel_std nav = vzero -> o_vrw o <> IZR 0 ->
  initialize s0 nav o = Some s -> time_update s x = Some t ->
  kP (f_kf t) (st 0) (st 0) = 0 /\
  kP (f_kf t) (st 0) (st 3) = Rdiv (Rmult (Rmult (Rdiv 1 (o_rate o)) (Rdiv 1 (o_rate o))) (Rmult (o_vrw o) (o_vrw o))) 2 /\
  ~ psd (kP (f_kf t)).
Proof.
move=> hf q hp hv hw hi ht. have [hd [hr [ho [f0 hP]]]] := first_epoch _ _ _ _ _ _ hf q hi ht.
set phi := blocks _ in hP. set d := diagonal (std_diag nav o) in hP.
have row0 k : (phi *m d) (st 0) k = 0.
  rewrite mul_diag_r. case: (ltnP k 6) => hk.
    have -> : diagonal (std_diag nav o) k k = 0; last by rewrite mulr0.
    rewrite mxE eqxx. have : ((k %/ 3) < 2)%N by rewrite ltn_divLR.
    case: (k %/ 3)%N => [|[|m]] //= _; rewrite ?hp ?hv; by case: (k %% 3)%N => [|[|?]].
  have -> : phi (st 0) k = 0; last by rewrite mul0r.
  rewrite phi_entry st_val //=. have : (2 <= k %/ 3)%N by rewrite leq_divRL.
  case: (k %/ 3)%N => [|[|m]] //= _. by case: (k %% 3)%N => [|[|[|?]]].
have cov0 k : (phi *m (d *m d) *m phi^T) (st 0) k = 0.
  rewrite mulmxA -mulmxA mxE big1 // => l _. by rewrite row0 mul0r.
have Pe k : kP (f_kf t) (st 0) k = process_noise phi (diagonal (Q0_diag o)) (Rdiv 1 (o_rate o)) (st 0) k.
  by rewrite hP mxE cov0 add0r.
have D0 : @diagonal 15 (Q0_diag o) (st 0) (st 0) = 0 by rewrite mxE eqxx st_val.
have D3 : @diagonal 15 (Q0_diag o) (st 3) (st 3) = Rmult (o_vrw o) (o_vrw o) by rewrite mxE eqxx st_val.
have p03 : phi (st 0) (st 3) = Rmult (Rdiv 1 (o_rate o)) 1 by rewrite phi_entry !st_val //= hd.
have e00 : kP (f_kf t) (st 0) (st 0) = 0.
  rewrite Pe noise_entry; last exact: diagonal_symmetric. rewrite D0. exact: real_zero2.
have e03 : kP (f_kf t) (st 0) (st 3) = Rdiv (Rmult (Rmult (Rdiv 1 (o_rate o)) (Rdiv 1 (o_rate o))) (Rmult (o_vrw o) (o_vrw o))) 2.
  rewrite Pe noise_entry; last exact: diagonal_symmetric. rewrite D0 D3 p03. exact: real_fact2.
split => //. split => // hpsd.
have sP : symmetric (kP (f_kf t)).
  have h1 := initialize_sym _ _ _ _ hi. by case: (time_update_sym _ _ _ h1 ht).
move: (psd_zero _ _ (st 0) (st 3) sP hpsd e00). rewrite e03. exact: real_fact3 hr hw.
Qed.

Lemma variance_scale n (p : 'M[R]_n) a x : variance (a *: p) x = Rmult a (variance p x).
Proof. by rewrite /variance -scalemxAr -scalemxAl mxE. Qed.

(** the process noise is a covariance up to a quarter of the drift part *)
Lemma noise_parts phi q0 dt : process_noise phi q0 dt =
  dt *: ((1%:M + Rdiv 1 2 *: (phi - 1%:M)) *m q0 *m (1%:M + Rdiv 1 2 *: (phi - 1%:M))^T
         - Rdiv 1 4 *: ((phi - 1%:M) *m q0 *m (phi - 1%:M)^T)).
Proof.
rewrite /process_noise; congr (_ *: _).
have gen (a b c d : 'M[R]_15) : Rdiv 1 2 *: (d + a + (d + b)) = d + Rdiv 1 2 *: a + (Rdiv 1 2 *: b + Rdiv 1 2 *: (Rdiv 1 2 *: c)) - Rdiv 1 4 *: c.
  apply/matrixP => i j; rewrite !mxE. exact: real_fact4.
set F := phi - 1%:M. have -> : phi = 1%:M + F by rewrite /F addrC subrK.
have tD : (1%:M + F)^T = 1%:M + F^T by rewrite [LHS]linearD /= trmx1.
have tH : (1%:M + Rdiv 1 2 *: F)^T = 1%:M + Rdiv 1 2 *: F^T by rewrite [LHS]linearD /= trmx1 linearZ.
rewrite tD tH (mulmxDl 1%:M F q0) mul1mx (mulmxDr q0 1%:M F^T) mulmx1.
have E : (1%:M + Rdiv 1 2 *: F) *m q0 *m (1%:M + Rdiv 1 2 *: F^T) =
         q0 + Rdiv 1 2 *: (F *m q0) + (Rdiv 1 2 *: (q0 *m F^T) + Rdiv 1 2 *: (Rdiv 1 2 *: (F *m q0 *m F^T))).
  rewrite (mulmxDl 1%:M (Rdiv 1 2 *: F) q0) mul1mx -scalemxAl mulmxDr mulmx1; congr (_ + _).
  by rewrite -scalemxAr mulmxDl -scalemxAl scalerDr.
rewrite E.
rewrite (gen (F *m q0) (q0 *m F^T) (F *m q0 *m F^T) q0). by rewrite -!addrA.
Qed.

Lemma predict_bound (k : kf 15) phi q0 dt : psd q0 -> Rle 0 dt -> forall x,
  Rle (Rminus (variance (kP k) (phi^T *m x)) (Rmult (Rdiv dt 4) (variance q0 ((phi - 1%:M)^T *m x))))
      (variance (kP (kf_predict k phi (process_noise phi q0 dt))) x).
Proof.
move=> hq hd x. rewrite /kf_predict /= variance_add variance_conj noise_parts variance_scale variance_sub variance_scale !variance_conj.
set A := variance (kP k) _. set C := variance q0 ((phi - 1%:M)^T *m x).
have B0 := hq ((1%:M + Rdiv 1 2 *: (phi - 1%:M))^T *m x). move: B0. set B := variance q0 _ => B0.
exact: real_fact5.
Qed.

Lemma diagonal_variance n f x : variance (@diagonal n f) x = \sum_i (@diagonal n f i i * (x i ord0 * x i ord0)).
Proof.
rewrite /variance mxE. apply: eq_bigr => i _. rewrite mul_diag_r mxE. exact: real_fact6.
Qed.
Lemma sum_nonneg (I : Type) (s : seq I) (F : I -> R) : (forall i, Rle 0 (F i)) -> Rle 0 (\sum_(i <- s) F i).
Proof.
move=> h. elim: s => [|i s IH]; first by rewrite big_nil; apply: Rle_refl.
rewrite big_cons. exact: Rplus_le_le_0_compat.
Qed.
Lemma diagonal_psd n f : (forall i, Rle 0 (@diagonal n f i i)) -> psd (@diagonal n f).
Proof.
move=> h x. rewrite diagonal_variance. apply: sum_nonneg => i. apply: Rmult_le_pos => //. exact: Rle_0_sqr.
Qed.
Lemma Q0_psd o : Rlt 0 (o_gt_corr o) -> Rlt 0 (o_at_corr o) -> psd (@diagonal 15 (Q0_diag o)).
Proof.
move=> hg ha. apply: diagonal_psd => i. rewrite mxE eqxx.
case: (i %/ 3)%N => [|[|[|[|b]]]]; case: (i %% 3)%N => [|[|c]] /=; try exact: Rle_refl; try exact: Rle_0_sqr; exact: real_fact7.
Qed.

(** through the running filter *)
Lemma run_Q0 cs : forall s t, run_calls s cs = Some t -> f_Q0 t = f_Q0 s.
Proof.
elim: cs => [|c cs IH] s t /=; first by case=> <-. move=> /(bindP _ _ _)[u hu /IH ->] {IH}.
move: hu; case: c => [x|g|v|v] /=.
- move=> /time_update_split[s1 [s2 [s3 [s4 [h1 h2 h3 h4 ->]]]]] /=.
  have [[-> _] _] := nhc_step_spec _ _ h4. have [[-> _] _] := zupt_step_spec _ _ h3.
  have [sm [i [phi [_ _ _ ->]]]] := propagate_spec _ _ _ h2. have [_ [hq _ _ _ _]] := feed_spec _ _ h1. rewrite /= hq.
  by have [_ [_ _ ->]] := take_spec s.
- case E: (gnss_check g); last by rewrite /gnss_update E => -[<-].
  by rewrite gnss_accepted // => /(bindP _ _ _)[k _ [<-]].
- by rewrite /velocity_update_f; case: o_nhc => /(bindP _ _ _)[k _ [<-]].
- move=> /(bindP _ _ _)[s1 h]; case: ifP => // _ [<-] /=. move: h; case: ifP => _; last by case=> <-.
  by move=> /(bindP _ _ _)[k _ [<-]].
Qed.

Lemma run_dt cs : forall s t, run_calls s cs = Some t -> s_dt (f_ins t) = s_dt (f_ins s).
Proof.
elim: cs => [|c cs IH] s t /=; first by case=> <-. move=> /(bindP _ _ _)[u hu /IH ->] {IH}.
move: hu; case: c => [x|g|v|v] /=.
- exact: time_update_dt.
- case E: (gnss_check g); last by rewrite /gnss_update E => -[<-].
  by rewrite gnss_accepted // => /(bindP _ _ _)[k _ [<-]].
- by rewrite /velocity_update_f; case: o_nhc => /(bindP _ _ _)[k _ [<-]].
- move=> /(bindP _ _ _)[s1 h]; case: ifP => // _ [<-] /=. move: h; case: ifP => _; last by case=> <-.
  by move=> /(bindP _ _ _)[k _ [<-]].
Qed.

Lemma variance_loss s0 nav o s cs u x t : (0 <= f_flag s0)%Z -> unconstrained o ->
  Rlt 0 (o_rate o) -> Rlt 0 (o_gt_corr o) -> Rlt 0 (o_at_corr o) ->
  initialize s0 nav o = Some s -> run_calls s cs = Some u -> time_update u x = Some t ->
  exists2 phi, transfer (f_ins t) o = Some phi & forall y,
  Rle (Rminus (variance (kP (f_kf u)) (phi^T *m y))
              (Rmult (Rdiv (Rdiv 1 (o_rate o)) 4) (variance (diagonal (Q0_diag o)) ((phi - 1%:M)^T *m y))))
      (variance (kP (f_kf t)) y).
Proof.
move=> hf [q1 q2] hr hg ha hi hrun ht. have [i1 [i2 [i3 i4]]] := initialize_start _ _ _ _ hi.
have fs : (0 <= f_flag s)%Z by rewrite i3. have fu := run_flag _ _ _ fs hrun.
have [_ [o1 _]] := run_counts _ _ _ hrun ltac:(by rewrite i1).
have ho : f_opt t = o by have [_ [-> _]] := time_update_counts _ _ _ ht; rewrite o1.
have [_ [_ b3]] := time_update_flags _ _ _ fu ht.
have z1 : zupt_due t = false by rewrite /zupt_due ho q1 andbF.
have z2 : nhc_due t = false by rewrite /nhc_due ho; case: q2 => ->; rewrite ?andbF.
have [f0 [p pe hP]] := b3 z1 z2. exists p; first by rewrite -ho.
have hd : s_dt (f_ins t) = Rdiv 1 (o_rate o).
  rewrite (time_update_dt _ _ _ ht) (run_dt _ _ _ hrun). by move: hi; rewrite /initialize; case: ifP => // _ [<-].
have hq : f_Q0 u = diagonal (Q0_diag o).
  rewrite (run_Q0 _ _ _ hrun). by move: hi; rewrite /initialize; case: ifP => // _ [<-].
rewrite hd hq in hP. move=> y. rewrite hP.
apply: (predict_bound (f_kf u)); first exact: Q0_psd. apply: Rlt_le; exact: Rdiv_lt_0_compat Rlt_0_1 hr.
Qed.

(** a precise fix after the first epoch makes a variance negative *)
Lemma diag_unit (f : nat -> vec) : (forall i, @diagonal 3 f i i <> 0) -> @diagonal 3 f \in unitmx.
Proof.
move=> h. rewrite unitmxE.
have -> : @diagonal 3 f = diag_mx (\row_i @diagonal 3 f i i).
  apply/matrixP => i j; rewrite !mxE eqxx. by case: eqP => [->|]; rewrite ?mulr1n ?mulr0n.
rewrite det_diag unitfE. apply/prodf_neq0 => i _. rewrite mxE. exact/eqP.
Qed.
Lemma diag_inv (f : nat -> vec) i j : (forall i, @diagonal 3 f i i <> 0) ->
  invmx (@diagonal 3 f) i j = if i == j then Rinv (@diagonal 3 f i i) else 0.
Proof.
move=> h. have hu := diag_unit _ h.
have -> : invmx (@diagonal 3 f) = \matrix_(i, j) (if i == j then Rinv (@diagonal 3 f i i) else 0); last by rewrite mxE.
apply: (can_inj (mulKmx hu)). rewrite mulmxV //. apply/matrixP => a b. rewrite mul_diag_l [X in _ = _ * X]mxE [LHS]mxE.
case: eqP => [->|_]; last by rewrite mulr0. rewrite mulr1n. symmetry; exact: (Rinv_r _ (h b)).
Qed.

Lemma fix_negative s0 nav o s x t g : (0 <= f_flag s0)%Z -> unconstrained o ->
  n_pos_std nav = vzero -> n_vel_std nav = vzero -> n_att_std nav = vzero -> o_gb_std o = vzero -> o_ab_std o = vzero ->
  o_lb_gnss o = vzero ->
  initialize s0 nav o = Some s -> time_update s x = Some t -> gnss_check g = true ->
  let r k := Rmult (Rmult k k) (o_gnss_scale o) in let dt := Rdiv 1 (o_rate o) in
  Rlt 0 (r (vx (g_std g))) -> Rlt 0 (r (vy (g_std g))) -> Rlt 0 (r (vz (g_std g))) ->
  exists u, gnss_update t g = Some u /\
    kP (f_kf u) (st 3) (st 3) = Rminus (Rmult dt (Rmult (o_vrw o) (o_vrw o)))
      (Rdiv (Rmult (Rmult (Rmult dt dt) (Rmult dt dt)) (Rmult (Rmult (o_vrw o) (o_vrw o)) (Rmult (o_vrw o) (o_vrw o)))) (Rmult 4 (r (vx (g_std g))))).
Proof.
move=> hf q hp hv hatt hgb hab hlb hi ht hg r dt r1 r2 r3.
have [hd [hr [ho [f0 hP]]]] := first_epoch _ _ _ _ _ _ hf q hi ht.
set phi := blocks _ in hP.
have d0 : @diagonal 15 (std_diag nav o) = 0.
  by apply: diag_zero => b; case: b => [|[|[|[|b]]]] /=.
rewrite d0 mulmx0 mulmx0 mul0mx add0r in hP. rewrite -/dt in hP.
set N := process_noise _ _ _ in hP.
have sN : symmetric N by apply: noise_symmetric; exact: diagonal_symmetric.
pose Rn : 'M[R]_3 := fix_noise o g.
have Rdiag i : Rn i i <> 0.
  rewrite mxE eqxx. case: i => [[|[|[|k]]] hk] //=; exact: Rgt_not_eq.
have D k : (k < 3)%N -> @diagonal 15 (Q0_diag o) (st k) (st k) = 0.
  move=> hk. rewrite mxE eqxx st_val; last exact: ltn_trans hk _. rewrite divn_small //. by case: k hk => [|[|[|k]]].
have D3 : @diagonal 15 (Q0_diag o) (st 3) (st 3) = Rmult (o_vrw o) (o_vrw o) by rewrite mxE eqxx st_val.
have ph k : (k < 3)%N -> phi (st k) (st 3) = if k == 0%N then dt else 0.
  move=> hk. rewrite phi_entry !st_val //=; last exact: ltn_trans hk _. rewrite divn_small //= hd -/dt.
  case: k hk => [|[|[|k]]] //= _; [exact: Rmult_1_r|exact: Rmult_0_r|exact: Rmult_0_r].
have ph33 : phi (st 3) (st 3) = 1.
  rewrite phi_entry !st_val //=. exact: real_fact9.
have N3 k : (k < 3)%N -> N (st 3) (st k) = if k == 0%N then Rmult dt (Rmult (Rdiv 1 2) (Rmult (Rmult (o_vrw o) (o_vrw o)) dt)) else 0.
  move=> hk. rewrite noise_entry; last exact: diagonal_symmetric. rewrite D // D3 ph //. 
  case: k hk => [|[|[|k]]] //= _; [exact: real_fact10|exact: real_fact11|exact: real_fact11].
have Npp k l : (k < 3)%N -> (l < 3)%N -> N (st k) (st l) = 0.
  move=> hk hl. rewrite noise_entry; last exact: diagonal_symmetric. rewrite !D //. exact: real_zero2.
have N33 : N (st 3) (st 3) = Rmult dt (Rmult (o_vrw o) (o_vrw o)).
  rewrite noise_entry; last exact: diagonal_symmetric. rewrite D3 ph33. exact: real_fact12.
have emb (j : 'I_3) : (j < 15)%N by case: j => [j hj]; exact: ltn_trans hj _.
have hH (i : 'I_3) (k : 'I_15) : H_pos t i k = if k == st i then 1 else 0.
  rewrite mxE ho hlb. have E : skew (mvec (n_Cbn (s_nav (f_ins t))) vzero) = mzero.
    case: (n_Cbn _) => a1 a2 a3 a4 a5 a6 a7 a8 a9. exact: real_fact13.
  rewrite /pos_h E. have -> : (k == st i) = ((k %/ 3 == 0)%N && (k %% 3 == i)%N).
    rewrite -(inj_eq val_inj) /= st_val //. apply/eqP/andP.
      move=> ->. by rewrite divn_small // modn_small.
    case=> /eqP h1 /eqP <-. by rewrite {1}(divn_eq k 3) h1.
  rewrite (modn_small (ltn_ord i)).
  have : (k %% 3 < 3)%N by rewrite ltn_mod.
  case: (k %/ 3)%N => [|[|[|b]]]; case: i => [[|[|[|i]]] hi'] //=; by case: (k %% 3)%N => [|[|[|c]]].
have selR m (A : 'M[R]_(m, 15)) a (j : 'I_3) : (A *m (H_pos t)^T) a j = A a (st j).
  rewrite mxE (bigD1 (st j)) //= big1 ?addr0 => [|l hl]; first by rewrite mxE hH eqxx mulr1.
  by rewrite mxE hH (negbTE hl) mulr0.
have selL m (A : 'M[R]_(15, m)) (j : 'I_3) a : (H_pos t *m A) j a = A (st j) a.
  rewrite mxE (bigD1 (st j)) //= big1 ?addr0 => [|l hl]; first by rewrite hH eqxx mul1r.
  by rewrite hH (negbTE hl) mul0r.
have S : H_pos t *m kP (f_kf t) *m (H_pos t)^T + Rn = Rn.
  rewrite hP. apply/matrixP => a b; rewrite [LHS]mxE selR selL Npp ?ltn_ord //. exact: add0r.
rewrite gnss_accepted // ho -/Rn.
have hu := diag_unit _ Rdiag.
have [k hk] : exists k, kf_update (f_kf t) (H_pos t) (z_pos t (fix_place g)) Rn = Some k.
  rewrite /kf_update S hu. by eexists.
rewrite hk /=. eexists; split; first by []. rewrite /=.
have [_ [_ ->]] := update_some _ _ _ _ _ _ _ hk.
have sP : symmetric (kP (f_kf t)) by rewrite hP.
have sR : symmetric Rn by exact: diagonal_symmetric.
have hu' : H_pos t *m kP (f_kf t) *m (H_pos t)^T + Rn \in unitmx by rewrite S.
move: (corrected_gain _ _ (kP (f_kf t)) (H_pos t) Rn 0 sP sR hu'). cbv zeta.
rewrite S corrected_zero sub0r. set G := kP (f_kf t) *m _ *m _.
have -> : - G *m Rn *m (- G)^T = G *m Rn *m G^T by rewrite linearN /= mulNmx mulNmx mulmxN opprK.
have GR : G *m Rn = kP (f_kf t) *m (H_pos t)^T by rewrite /G -mulmxA mulVmx // mulmx1.
rewrite GR => E. move: (congr1 (fun m : 'M[R]_15 => m (st 3) (st 3)) E). rewrite hP [RHS]mxE N33.
have -> : (N *m (H_pos t)^T *m G^T) (st 3) (st 3) =
  Rdiv (Rmult (Rmult (Rmult dt dt) (Rmult dt dt)) (Rmult (Rmult (o_vrw o) (o_vrw o)) (Rmult (o_vrw o) (o_vrw o)))) (Rmult 4 (r (vx (g_std g)))); last exact: real_fact14.
rewrite mxE (bigD1 (ord0 : 'I_3)) //= big1 ?addr0 => [|l hl]; last first.
  rewrite selR N3 //. have -> : (l == 0%N :> nat) = false by apply: negbTE. by rewrite mul0r.
rewrite selR N3 //= mxE /G mxE (bigD1 (ord0 : 'I_3)) //= big1 ?addr0 => [|l hl]; last first.
  rewrite selR hP N3 //. have -> : (l == 0%N :> nat) = false by apply: negbTE. by rewrite mul0r.
rewrite selR hP N3 //= diag_inv // eqxx mxE eqxx /=.
exact: real_fact15 r1.
Qed.
