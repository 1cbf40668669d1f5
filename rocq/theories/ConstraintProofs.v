(** Constraints of an epoch (C138, C139). *)
From Coq Require Import Reals ZArith Lra Lia.
From mathcomp Require Import all_ssreflect ssralg matrix.
From Verif Require Import Rfield RealMath InsModel SmoothModel FusionBase KalmanModel KalmanSpec KalmanProofs InfoProofs FusionModel FusionProofs FusionCov FusionRest FusionCases FusionZupta
  InnovationProofs WheelSpec WheelProofs ConvertModel InsRest2 JacobianSpec JacobianMatrix ConstraintSpec.
Import GRing.Theory.
Local Open Scope ring_scope.

(** the residual after an update is not larger than the measurement, weighed with the inverse of the noise *)
Lemma variance_sum m (w : 'M[R]_m) (a b : 'cV[R]_m) : variance w (a + b) =
  Rplus (Rplus (variance w a) (variance w b)) (Rplus ((a^T *m w *m b) ord0 ord0) ((b^T *m w *m a) ord0 ord0)).
Proof.
rewrite /variance. have -> : (a + b)^T = a^T + b^T by rewrite linearD.
rewrite (mulmxDl a^T b^T w) mulmxDr (mulmxDl (a^T *m w)) (mulmxDl (a^T *m w)).
rewrite [LHS]mxE [X in X + _]mxE [X in _ + X]mxE. rewrite /GRing.add /=. ring.
Qed.
Lemma residual_split m (w a r : 'M[R]_m) (y : 'cV[R]_m) : symmetric w -> symmetric r -> w *m r = 1%:M ->
  variance w (a *m y + r *m y) = Rplus (variance w (a *m y)) (Rplus (Rmult 2 (variance a y)) (variance w (r *m y))).
Proof.
move=> sw sr wr. have rw : r *m w = 1%:M by rewrite -sr -sw -trmx_mul wr trmx1.
rewrite variance_sum. have -> : (a *m y)^T *m w *m (r *m y) = (y^T *m a *m y)^T.
  by rewrite -!mulmxA (mulmxA w) wr mul1mx !trmx_mul trmxK ?mulmxA.
have -> : (r *m y)^T *m w *m (a *m y) = y^T *m a *m y by rewrite trmx_mul sr -!mulmxA (mulmxA r) rw mul1mx.
rewrite [X in Rplus _ (Rplus X _)]mxE -/(variance a y). ring.
Qed.
Lemma update_residual n m (k k' : kf n) (h : 'M[R]_(m, n)) z r w : psd (kP k) -> symmetric r -> symmetric w -> psd w -> w *m r = 1%:M ->
  kf_update k h z r = Some k' -> Rle (variance w (z - h *m kX k')) (variance w z).
Proof.
move=> hp sr sw hw wr /update_some[u [-> _]]. set a := h *m kP k *m h^T in u *. set y := invmx (a + r) *m z.
have ez : z = a *m y + r *m y by rewrite -mulmxDl /y mulKVmx.
have -> : z - h *m (kP k *m h^T *m invmx (a + r) *m z) = r *m y.
  rewrite -[kP k *m h^T *m invmx (a + r) *m z]mulmxA -/y. clearbody y. rewrite !mulmxA -/a. by rewrite [X in X - _]ez addrAC subrr add0r.
clearbody y. rewrite ez residual_split //.
have v0 : Rle 0 (variance a y) by rewrite /a; apply: psd_conj.
have v1 : Rle 0 (variance w (a *m y)) by apply: hw.
lra.
Qed.

(** inverse of a diagonal matrix *)
Definition vinv (v : vec) : vec := V (Rinv (vx v)) (Rinv (vy v)) (Rinv (vz v)).
Lemma diagonal_inverse n f : (forall i : 'I_n, Rlt 0 (@diagonal n f i i)) -> @diagonal n (fun b => vinv (f b)) *m diagonal f = 1%:M.
Proof.
move=> H. apply/matrixP => i j. rewrite mul_diag_l. case: (i =P j) => [<-|ne]; last first.
  by rewrite !mxE (introF eqP ne) mulr0.
move: (H i). rewrite !mxE !eqxx /=. set x := (i %% 3)%N. set g := f _. rewrite mulr1n => hx.
have -> : coord (vinv g) x = Rinv (coord g x) by rewrite /coord; case: x {hx} => [|[|k]].
apply: Rinv_l. lra.
Qed.
Lemma diagonal_inv_pos n f : (forall i : 'I_n, Rlt 0 (@diagonal n f i i)) -> forall i : 'I_n, Rlt 0 (@diagonal n (fun b => vinv (f b)) i i).
Proof.
move=> H i. move: (H i). rewrite !mxE !eqxx /=. case: (i %% 3)%N => [|[|k]] /=; exact: Rinv_0_lt_compat.
Qed.
Lemma diagonal_residual n m (k k' : kf n) (h : 'M[R]_(m, n)) z f : psd (kP k) -> (forall i : 'I_m, Rlt 0 (@diagonal m f i i)) ->
  kf_update k h z (diagonal f) = Some k' ->
  Rle (\sum_i (@diagonal m (fun b => vinv (f b)) i i * ((z - h *m kX k') i ord0 * (z - h *m kX k') i ord0)))
      (\sum_i (@diagonal m (fun b => vinv (f b)) i i * (z i ord0 * z i ord0))).
Proof.
move=> hp H E. rewrite -!diagonal_variance. apply: update_residual E => //.
- exact: diagonal_symmetric.
- exact: diagonal_symmetric.
- apply: pd_psd. apply: diagonal_pd. exact: diagonal_inv_pos.
- exact: diagonal_inverse.
Qed.

(** ** sideways motion *)
Lemma lower_mul n (h : 'M[R]_(3, n)) (x : 'cV[R]_n) : lower2 h *m x = lower2 (h *m x).
Proof. apply/matrixP => i j. rewrite !mxE. apply: eq_bigr => k _. by rewrite !mxE. Qed.
Lemma lower_column v : lower2 (column (fun _ => v)) = column (a := 2) (fun _ => V (vy v) (vz v) 0).
Proof. apply/matrixP => i j. rewrite !mxE. case: i => [[|[|//]] hi] /=; by rewrite inordK. Qed.
Lemma column_sub a (f g : nat -> vec) : (column f : 'cV[R]_a) - column g = column (fun b => vsub (f b) (g b)).
Proof. apply/matrixP => i j. rewrite !mxE. by case: (i %% 3)%N => [|[|k]]. Qed.
Lemma sum2 (f : 'I_2 -> R) : \sum_i f i = Rplus (f ord0) (f (lift ord0 ord0)).
Proof. by rewrite !big_ord_recl big_ord0 addr0. Qed.
Lemma column_zero2 : column (a := 2) (fun _ => V 0 0 0) = 0.
Proof. apply/matrixP => i j. rewrite !mxE. by case: (_ %% _)%N => [|[|k]]. Qed.

Lemma wheel_apply (g : nat -> mat) (x : 'cV[R]_15) : (blocks (fun _ c => g c) : 'M[R]_(3, 15)) *m x = column (fun _ => design g (err_of x)).
Proof. exact: blocks_apply. Qed.
Lemma nhc_measure s : psd (kP (f_kf s)) -> o_nhc_std0 (f_opt s) <> IZR 0 -> o_nhc_std1 (f_opt s) <> IZR 0 ->
  exists2 t, measure_nhc s = Some t &
    Rle (side_square (o_nhc_std0 (f_opt s)) (o_nhc_std1 (f_opt s)) (vsub (says s) (wheel_error s t)))
        (side_square (o_nhc_std0 (f_opt s)) (o_nhc_std1 (f_opt s)) (says s)) /\
    (vy (says s) = IZR 0 -> vz (says s) = IZR 0 -> kX (f_kf t) = 0).
Proof.
move=> hp n0 n1. rewrite /measure_nhc says_value diagonal_square /wheel_error. move: (says s) => v. set a := o_nhc_std0 _ in n0 *. set b := o_nhc_std1 _ in n1 *.
set h := lower2 (blocks _). set r := diagonal _. pose f := (fun _ : nat => V (Rmult a a) (Rmult b b) (Rmult 0 0)). have er : r = diagonal f by []. rewrite er {r er}.
have H : forall i : 'I_2, Rlt 0 (@diagonal 2 f i i).
  move=> i. rewrite mxE eqxx. case: i => [[|[|//]] hk] /=; exact: sq_pos.
have [k hk] := update_defined _ _ (f_kf s) h (lower2 (column (fun _ => v))) _ hp (diagonal_pd _ _ H).
rewrite hk. cbn [bind]. eexists; first reflexivity. cbn [f_kf set_kf set_flag]. split; last first.
  move=> y0 z0. have [_ [-> _]] := update_some _ _ _ _ _ _ _ hk. by rewrite lower_column y0 z0 column_zero2 mulmx0.
have := diagonal_residual _ _ _ _ _ _ _ hp H hk.
rewrite /h lower_mul (wheel_apply (vel_h (f_ins s) (f_opt s))). move: (design _ _) => e.
rewrite !lower_column column_sub !sum2 !mxE /=.
rewrite /side_square /vsub /=.
rewrite /GRing.mul /=. rewrite !Rinv_mult /Rdiv. lra.
Qed.

Lemma side_due_b s : side_due s -> nhc_due s = true.
Proof. case=> [a [b c]]. by rewrite /nhc_due a b c. Qed.
Lemma still_due_b s : still_due s -> zupt_due s = true.
Proof. case=> [a [b c]]. rewrite /zupt_due b c. by case: Z.eqb_spec. Qed.
Lemma nhc_not s : ~ side_due s -> nhc_due s = false.
Proof.
move=> H. apply/negP => /and3P[/Z.eqb_eq a b c]. apply: H. split=> //. split=> //. exact: negbTE.
Qed.

(** the zero velocity update keeps the covariance good *)
Lemma zupt_cov n : n <> IZR 0 -> forall i : 'I_3, Rlt 0 (@diagonal 3 (fun _ => V (Rmult n n) (Rmult n n) (Rmult n n)) i i).
Proof. move=> H i. rewrite mxE eqxx. case: (_ %% _)%N => [|[|k]] /=; exact: sq_pos. Qed.
Lemma zero_velocity_psd s : psd (kP (f_kf s)) -> deviations (f_opt s) -> (o_zupta (f_opt s) = true -> s_dt (f_ins s) <> IZR 0) ->
  exists2 t, zero_velocity s = Some t & psd (kP (f_kf t)).
Proof.
move=> hp [_ [_ [z0 z1]]] hd. rewrite /zero_velocity. have P3 := diagonal_pd _ _ (zupt_cov _ z0).
have [k hk] := update_defined _ _ (f_kf s) (blocks (fun _ c => zupt_h c)) (column (fun _ => n_vn (s_nav (f_ins s)))) _ hp P3.
have hpk : psd (kP k) by apply: update_psd hk => //; exact: pd_psd.
rewrite hk. cbn [bind]. case Ea : (o_zupta _); last by eexists; first reflexivity.
rewrite (not_zero_b _ (hd Ea)).
have [k2 hk2] := update_defined _ _ k zupta_row (one_by_one (Rdiv (vz (s_gyro_pre (f_ins s))) (s_dt (f_ins s)))) _ hpk (WheelProofs.one_pd1 _ z1).
rewrite hk2. cbn [bind]. eexists; first reflexivity. apply: update_psd hk2 => //. apply: pd_psd. exact: WheelProofs.one_pd1.
Qed.
Lemma zupt_psd s : psd (kP (f_kf s)) -> deviations (f_opt s) -> (o_zupta (f_opt s) = true -> s_dt (f_ins s) <> IZR 0) ->
  exists2 t, zupt_step s = Some t & psd (kP (f_kf t)).
Proof.
move=> hp hd hz. rewrite /zupt_step. case: ifP => _; last by exists s. case: (is_static _); last by eexists; first reflexivity.
have [t -> ht] := zero_velocity_psd s hp hd hz. by eexists; first reflexivity.
Qed.

Lemma says_sensors s t : f_opt t = f_opt s -> f_ins t = f_ins s \/ (exists n, f_ins t = sensors_set (f_ins s) n) \/ (exists n, f_ins t = sensors_clear (f_ins s) n) ->
  says t = says s /\ vel_h (f_ins t) (f_opt t) = vel_h (f_ins s) (f_opt s).
Proof. move=> O. rewrite /says O. by case=> [->|[[n ->]|[n ->]]]. Qed.

Lemma side_constraint s : psd (kP (f_kf s)) -> deviations (f_opt s) -> (o_zupta (f_opt s) = true -> s_dt (f_ins s) <> IZR 0) -> side_due s ->
  exists2 t, constrain s = Some t &
    Rle (side_square (o_nhc_std0 (f_opt s)) (o_nhc_std1 (f_opt s)) (vsub (says s) (wheel_error s t)))
        (side_square (o_nhc_std0 (f_opt s)) (o_nhc_std1 (f_opt s)) (says s)) /\
    (vy (says s) = IZR 0 -> vz (says s) = IZR 0 -> kX (f_kf t) = 0).
Proof.
move=> hp hd hz /side_due_b due. have [u eu pu] := zupt_psd s hp hd hz. rewrite /constrain eu. cbn [bind].
have [[_ [O [_ [_ [J _]]]]] [I _]] := zupt_step_spec _ _ eu.
have D : nhc_due u = nhc_due s by rewrite /nhc_due O J.
rewrite /nhc_step -/(nhc_due u) D due.
have [n0 [n1 _]] := hd. have [t et [h1 h2]] := nhc_measure u pu (eq_ind_r (fun o => o_nhc_std0 o <> IZR 0) n0 O) (eq_ind_r (fun o => o_nhc_std1 o <> IZR 0) n1 O).
rewrite et. cbn [bind]. eexists; first reflexivity. cbn [f_kf set_ins].
have [e1 e2] : says u = says s /\ vel_h (f_ins u) (f_opt u) = vel_h (f_ins s) (f_opt s).
  apply: says_sensors => //. rewrite I. case: ifP => _; last by left. case: (is_static _); right; [left|right]; by eexists.
move: h1 h2. rewrite /wheel_error e1 e2 O. by [].
Qed.

(** ** zero velocity *)
Lemma design_zupt x : design zupt_h x = x_vel x.
Proof. rewrite /design /zupt_h /mvec /mzero /eye /vadd /=. case: (x_vel x) => a b c /=. congr V; ring. Qed.
Lemma zupt_apply (x : 'cV[R]_15) : (blocks (fun _ c => zupt_h c) : 'M[R]_(3, 15)) *m x = column (fun _ => part x 1).
Proof. rewrite blocks_apply. apply/matrixP => i j. rewrite !mxE. by rewrite (design_zupt (err_of x)). Qed.
Lemma sum3 (f : 'I_3 -> R) : \sum_i f i = Rplus (f ord0) (Rplus (f (lift ord0 ord0)) (f (lift ord0 (lift ord0 ord0)))).
Proof. by rewrite !big_ord_recl big_ord0 addr0. Qed.

Lemma still_measure s : psd (kP (f_kf s)) -> o_zupt_std (f_opt s) <> IZR 0 -> o_zupta (f_opt s) = false ->
  exists2 t, zero_velocity s = Some t &
    Rle (square (vsub (n_vn (s_nav (f_ins s))) (velocity_error t))) (square (n_vn (s_nav (f_ins s)))) /\
    (n_vn (s_nav (f_ins s)) = vzero -> kX (f_kf t) = 0).
Proof.
move=> hp z0 za. rewrite /zero_velocity za /velocity_error. have H := zupt_cov _ z0.
set v := n_vn _. have [k hk] := update_defined _ _ (f_kf s) (blocks (fun _ c => zupt_h c)) (column (fun _ => v)) _ hp (diagonal_pd _ _ H).
rewrite hk. cbn [bind]. eexists; first reflexivity. cbn [f_kf set_kf set_flag]. split; last first.
  move=> v0. have [_ [-> _]] := update_some _ _ _ _ _ _ _ hk. by rewrite v0 column_zero3 // mulmx0.
have := diagonal_residual _ _ _ _ _ _ _ hp H hk. rewrite zupt_apply column_sub. move: (part (kX k) 1) => e.
move: (sq_pos _ z0) => z2. rewrite !sum3 !mxE /= /vsub /square /=. move: (Rmult _ _) z2 => q q0.
have q1 := Rinv_0_lt_compat _ q0. rewrite /GRing.mul /=. move: (Rinv q) q1 => w w0 h. apply: (Rmult_le_reg_l w) => //. lra.
Qed.

Lemma still_constraint s : psd (kP (f_kf s)) -> deviations (f_opt s) -> o_zupta (f_opt s) = false -> still_due s -> ~ side_due s ->
  exists2 t, constrain s = Some t &
    Rle (square (vsub (n_vn (s_nav (f_ins s))) (velocity_error t))) (square (n_vn (s_nav (f_ins s)))) /\
    (n_vn (s_nav (f_ins s)) = vzero -> kX (f_kf t) = 0).
Proof.
move=> hp [_ [_ [z0 _]]] za due nd. have [u eu H] := still_measure s hp z0 za.
have [[_ [O [_ [_ [J _]]]]] _] := zero_velocity_frame _ _ eu.
rewrite /constrain /zupt_step. case: due => [d1 [d2 d3]]. rewrite d2 d3 eu.
have -> : ~~ Z.eqb (Z.modulo (f_idx s) 8) 0 = true by case: Z.eqb_spec. cbn [andb bind].
rewrite /nhc_step. cbn [f_idx f_opt set_ins]. rewrite J O. have := nhc_not _ nd. rewrite /nhc_due => ->. eexists; first reflexivity. exact: H.
Qed.

(** the constraint on sideways motion overwrites the zero velocity correction when it is due in the same epoch *)
Lemma still_lost_side s t : side_due s -> vy (says s) = IZR 0 -> vz (says s) = IZR 0 -> constrain s = Some t -> kX (f_kf t) = 0.
Proof.
move=> /side_due_b due y0 z0. rewrite /constrain. move/(bindP _ _ _)=> [u eu].
have [[_ [O [_ [_ [J _]]]]] [I _]] := zupt_step_spec _ _ eu.
have D : nhc_due u = nhc_due s by rewrite /nhc_due O J.
have [e1 e2] : says u = says s /\ vel_h (f_ins u) (f_opt u) = vel_h (f_ins s) (f_opt s).
  apply: says_sensors => //. rewrite I. case: ifP => _; last by left. case: (is_static _); right; [left|right]; by eexists.
rewrite /nhc_step -/(nhc_due u) D due. move/(bindP _ _ _)=> [v ev [<-]]. move: ev. rewrite /measure_nhc says_value e1.
move/(bindP _ _ _)=> [k hk [<-]]. cbn [f_kf set_kf set_flag set_ins]. have [_ [-> _]] := update_some _ _ _ _ _ _ _ hk.
by rewrite lower_column y0 z0 column_zero2 mulmx0.
Qed.

(** an epoch is the feedback, the mechanisation, and these constraints *)
Lemma epoch_constraints s x t : time_update s x = Some t -> exists u v w, feed (take_estimate s) = Some u /\ propagate u x = Some v /\
  constrain v = Some w /\ f_kf t = f_kf w /\ f_ins t = f_ins w.
Proof.
move=> /time_update_split[s1 [s2 [s3 [s4 [h1 h2 h3 h4 ->]]]]]. exists s1, s2, s4. split=> //. split=> //. split=> //.
by rewrite /constrain h3.
Qed.

(** a level unit heading north that moves with velocity v, in epoch n, said to be at rest *)
Definition moving (v : vec) (n : Z) : fusion :=
  let s := with_velocity (case_start 1 true (V 1 1 1)) v in
  set_epoch s (Sm (Imu 0 vzero vzero) vzero vzero 0 10 10 five_nano 2 true) (f_ins s) (Kf 0 1%:M) n.
Lemma moving_says v n : says (moving v n) = v.
Proof.
rewrite /says /wheel_moves. have -> : o_lb_wheel (f_opt (moving v n)) = vzero by []. have -> : n_vn (s_nav (f_ins (moving v n))) = v by [].
have -> : o_angle_bv (f_opt (moving v n)) = vzero by [].
have -> : n_Cbn (s_nav (f_ins (moving v n))) = euler_to_dcm vzero by [].
move: (ground_rate _ _ _ _) => [a b c]. case: v => x y z.
rewrite /cross /mvec /mtrans /vadd /euler_to_dcm /vzero /eye /=. rewrite !sin_0 !cos_0. congr V; ring.
Qed.
Lemma moving_case v n : psd (kP (f_kf (moving v n))) /\ deviations (f_opt (moving v n)) /\ o_zupta (f_opt (moving v n)) = false.
Proof.
split; first by apply: pd_psd; exact: one_pd. split=> //. rewrite /deviations /=. do !split; lra.
Qed.
