(** The first fix. *)
From Coq Require Import Reals ZArith List Lia Lra.
From mathcomp Require Import all_ssreflect ssralg matrix.
From Verif Require Import RealMath EarthModel ConvertModel SmoothModel InsModel InsProofs InsRest InsSpec InsRest2 FusionBase Rfield KalmanModel KalmanSpec KalmanProofs FusionModel FusionSpec FusionProofs FusionFeed FusionCov FusionRest.
Import GRing.Theory.
Local Open Scope ring_scope.

Section Select.
Variable s : fusion.
Hypothesis lb0 : o_lb_gnss (f_opt s) = vzero.
Lemma H_entry (i : 'I_3) (k : 'I_15) : H_pos s i k = if k == st i then 1 else 0.
Proof.
have emb (j : 'I_3) : (j < 15)%N by case: j => [j hj]; exact: ltn_trans hj _.
rewrite mxE lb0. have E : skew (mvec (n_Cbn (s_nav (f_ins s))) vzero) = mzero.
  case: (n_Cbn _) => a1 a2 a3 a4 a5 a6 a7 a8 a9. exact: real_fact13.
rewrite /pos_h E. have -> : (k == st i) = ((k %/ 3 == 0)%N && (k %% 3 == i)%N).
  rewrite -(inj_eq val_inj) /= st_val //. apply/eqP/andP.
    move=> ->. by rewrite divn_small // modn_small.
  case=> /eqP h1 /eqP <-. by rewrite {1}(divn_eq k 3) h1.
rewrite (modn_small (ltn_ord i)).
have : (k %% 3 < 3)%N by rewrite ltn_mod.
case: (k %/ 3)%N => [|[|[|b]]]; case: i => [[|[|[|i]]] hi'] //=; by case: (k %% 3)%N => [|[|[|c]]].
Qed.
Lemma sel_r m (A : 'M[R]_(m, 15)) a (j : 'I_3) : (A *m (H_pos s)^T) a j = A a (st j).
Proof.
rewrite mxE (bigD1 (st j)) //= big1 ?addr0 => [|l hl]; first by rewrite mxE H_entry eqxx mulr1.
by rewrite mxE H_entry (negbTE hl) mulr0.
Qed.
Lemma sel_l m (A : 'M[R]_(15, m)) (j : 'I_3) a : (H_pos s *m A) j a = A (st j) a.
Proof.
rewrite mxE (bigD1 (st j)) //= big1 ?addr0 => [|l hl]; first by rewrite H_entry eqxx mul1r.
by rewrite H_entry (negbTE hl) mul0r.
Qed.
End Select.

(** weight of a measurement with variance r for a state with variance p *)
Definition weight (p r : R) : R := Rdiv p (Rplus p r).
Definition fix_var (o : option_t) (std : R) : R := Rmult (Rmult std std) (o_gnss_scale o).
Definition sq (x : R) : R := Rmult x x.
Definition weights (nav : navepoch) (o : option_t) (g : gnss) : vec :=
  let w p r := weight (sq p) (fix_var o r) in
  V (w (vx (n_pos_std nav)) (vx (g_std g))) (w (vy (n_pos_std nav)) (vy (g_std g))) (w (vz (n_pos_std nav)) (vz (g_std g))).
Definition vmul (a b : vec) : vec := V (Rmult (vx a) (vx b)) (Rmult (vy a) (vy b)) (Rmult (vz a) (vz b)).

Lemma st_inj (i j : 'I_3) : (st i == st j) = (i == j).
Proof.
rewrite -(inj_eq val_inj) /= !st_val //; try exact: ltn_trans (ltn_ord _) _.
Qed.
Lemma st_small (k : 'I_15) (hk : (k < 3)%N) : k = st (Ordinal hk).
Proof. apply: val_inj; by rewrite /= st_val. Qed.

Lemma first_fix s0 nav o s g : initialize s0 nav o = Some s -> o_lb_gnss o = vzero -> gnss_check g = true ->
  Rlt 0 (fix_var o (vx (g_std g))) -> Rlt 0 (fix_var o (vy (g_std g))) -> Rlt 0 (fix_var o (vz (g_std g))) ->
  exists k, gnss_update s g = Some (Fu (mode_set (sensors_set (f_ins s) SENSOR_GNSS) (Z.to_nat (Z.modulo (g_mode g) 65536))) k (f_Q0 s) o
             (Z.lor (f_flag s0) FLAG_POSITION) (f_Xd s0) (f_iter s0) 0 (f_smooth s0) 0
             (if Z.ltb (f_cnt s0) (f_min s0) then f_cnt s0 else f_min s0) (f_pheight s0) (g_height g) 1) /\
    kX k = column (fun b => if b == 0%N then vmul (weights nav o g) (pos_z (f_ins s) vzero (fix_place g)) else vzero).
Proof.
move=> hi hlb hg r1 r2 r3.
have Es : f_opt s = o /\ kP (f_kf s) = diagonal (std_diag nav o) *m diagonal (std_diag nav o) /\
  f_flag s = f_flag s0 /\ f_Xd s = f_Xd s0 /\ f_iter s = f_iter s0 /\ f_idx s = 0%Z /\ f_smooth s = f_smooth s0 /\
  f_cnt s = f_cnt s0 /\ f_min s = f_min s0 /\ f_pheight s = f_pheight s0.
  by move: hi; rewrite /initialize; case: ifP => // _ [<-].
move: Es => [ho [hP [e1 [e2 [e3 [e4 [e5 [e6 [e7 e8]]]]]]]]].
rewrite diagonal_square in hP. move: hP. set D := (fun _ => _) => hP.
have lb : o_lb_gnss (f_opt s) = vzero by rewrite ho.
pose pv := n_pos_std nav.
pose F (b : nat) := V (Rplus (sq (vx pv)) (fix_var o (vx (g_std g)))) (Rplus (sq (vy pv)) (fix_var o (vy (g_std g)))) (Rplus (sq (vz pv)) (fix_var o (vz (g_std g)))) : vec.
have F0 i : @diagonal 3 F i i <> 0.
  rewrite mxE eqxx. apply: Rgt_not_eq. case: (_ %% _)%N => [|[|k]] /=; apply: Rplus_le_lt_0_compat => //; exact: Rle_0_sqr.
have S : H_pos s *m kP (f_kf s) *m (H_pos s)^T + fix_noise (f_opt s) g = @diagonal 3 F.
  apply/matrixP => a b; rewrite [LHS]mxE sel_r // sel_l // hP ho. rewrite !mxE st_inj. case: eqP => [->|_]; last exact: add0r.
  rewrite st_val; last exact: ltn_trans (ltn_ord _) _. rewrite divn_small //.
  by case: b => [[|[|[|b]]] hb].
have hu := diag_unit _ F0.
rewrite gnss_accepted // -ho.
pose k := Kf (kP (f_kf s) *m (H_pos s)^T *m invmx (@diagonal 3 F) *m z_pos s (fix_place g))
   (let gain := kP (f_kf s) *m (H_pos s)^T *m invmx (@diagonal 3 F) in
    (1%:M - gain *m H_pos s) *m kP (f_kf s) *m (1%:M - gain *m H_pos s)^T + gain *m fix_noise (f_opt s) g *m gain^T).
have hk : kf_update (f_kf s) (H_pos s) (z_pos s (fix_place g)) (fix_noise (f_opt s) g) = Some k.
  by rewrite /kf_update S hu.
exists k. rewrite hk /= -e1 -e2 -e3 -e4 -e5 -e6 -e7 -e8. split => //.
rewrite /k /=. apply/matrixP => i j. rewrite [RHS]mxE [LHS]mxE.
have term (l : 'I_3) : (kP (f_kf s) *m (H_pos s)^T *m invmx (@diagonal 3 F)) i l =
  if i == st l then Rmult (coord (D 0%N) l) (Rinv (@diagonal 3 F l l)) else 0.
  rewrite mxE (bigD1 l) //= big1 ?addr0 => [|m hm]; last first.
    rewrite diag_inv // (negbTE hm). by rewrite mulr0.
  rewrite diag_inv // eqxx sel_r // hP mxE. case: eqP => [->|_]; last by rewrite mul0r.
  rewrite st_val; last exact: ltn_trans (ltn_ord _) _. by rewrite divn_small // modn_small.
case: (ltnP i 3) => hi3; last first.
  have -> : ((i %/ 3)%N == 0%N) = false by apply: negbTE; rewrite -lt0n divn_gt0.
  rewrite big1 => [|l _]; first by case: (i %% 3)%N => [|[|c]].
  rewrite term. have -> : (i == st l) = false.
    apply/eqP => E. move: hi3; rewrite E st_val; last exact: ltn_trans (ltn_ord _) _. by rewrite leqNgt ltn_ord.
  by rewrite mul0r.
rewrite divn_small // eqxx modn_small //.
rewrite (bigD1 (Ordinal hi3)) //= big1 ?addr0 => [|l hl]; last first.
  rewrite term [in X in X * _](st_small _ hi3) st_inj eq_sym (negbTE hl). by rewrite mul0r.
rewrite term -(st_small _ hi3) eqxx /=.
have -> : z_pos s (fix_place g) (Ordinal hi3) j = coord (pos_z (f_ins s) vzero (fix_place g)) i.
  by rewrite mxE lb /= modn_small.
have -> : @diagonal 3 F (Ordinal hi3) (Ordinal hi3) = coord (F 0%N) i by rewrite mxE eqxx /= modn_small.
rewrite /weights ho /F /D /pv. move: (nat_of_ord i) hi3 => n. by case: n => [|[|[|n]]].
Qed.

Lemma part_column f b : (b < 5)%N -> part (column f) b = f b.
Proof.
move=> hb. rewrite /part !mxE.
have D3 k : (k < 3)%N -> (3 * b + k < 15)%N.
  move=> hk. apply: leq_trans (_ : (3 * b + 3 <= 15)%N); first by rewrite ltn_add2l. by rewrite -mulnSr (leq_mul2l 3%N b.+1 5%N).
have e0 : (inord (3 * b) : 'I_15) = (3 * b)%N :> nat by rewrite inordK // -[X in (X < _)%N]addn0 D3.
have e1 : (inord (3 * b).+1 : 'I_15) = (3 * b + 1)%N :> nat by rewrite inordK ?addn1 // -addn1 D3.
have e2 : (inord (3 * b).+2 : 'I_15) = (3 * b + 2)%N :> nat by rewrite inordK ?addn2 // -addn2 D3.
rewrite e0 e1 e2. rewrite !(mulnC 3%N) !divnMDl // !modnMDl mulnK // modnMl /= !addn0. by case: (f b).
Qed.

(** a fix above the unit at rest *)
Lemma fix_above i0 o0 nav o s g q time : initialize (fusion_new i0 o0) nav o = Some s ->
  o_lb_gnss o = vzero -> unconstrained o -> Rlt 0 (o_rate o) -> gnss_check g = true ->
  let lat := Rmult (g_lat g) deg in let lon := Rmult (g_lon g) deg in let h := vz (n_pos nav) in
  nav_rest nav lat lon h q -> n_Cne nav = lla_to_cne lat lon -> qnorm2 q = 1 ->
  let p := sq (vz (n_pos_std nav)) in let r := fix_var o (vz (g_std g)) in
  Rlt 0 (fix_var o (vx (g_std g))) -> Rlt 0 (fix_var o (vy (g_std g))) -> Rlt 0 r ->
  let h' := Rplus h (Rmult (weight p r) (Rminus (g_height g) h)) in
  place_ok lat lon h -> place_ok lat lon h' ->
  let dt := Rdiv 1 (o_rate o) in
  let x := Imu time (rest_gyro (quaternion_to_dcm q) lat dt) (mvec (mtrans (quaternion_to_dcm q)) (balanced lat h' dt)) in
  exists t, run_calls s [:: CallGnss g; CallImu x] = Some t /\
    n_pos (s_nav (f_ins t)) = V lat lon h' /\ n_vn (s_nav (f_ins t)) = vzero /\
    n_Cbn (s_nav (f_ins t)) = n_Cbn nav /\ n_gb (s_nav (f_ins t)) = n_gb nav /\ n_ab (s_nav (f_ins t)) = n_ab nav.
Proof.
move=> hi hlb hq hrate hg lat lon h hrest hCne q1 p r r1 r2 r3 h' P P' dt x.
have [k [E X]] := first_fix _ _ _ _ _ hi hlb hg r1 r2 r3.
set u := Fu _ _ _ _ _ _ _ _ _ _ _ _ _ _ in E. 
have hs : f_ins s = ins_nav (init_pva i0 nav (o_rate o)) (nav_kd nav (o_odo_scale o)).
  by move: hi; rewrite /initialize; case: ifP => // _ [<-].
have np : n_pos nav = V lat lon h by move: hrest => [].
have Z : pos_z (f_ins s) vzero (fix_place g) = V 0 0 (Rminus (g_height g) h).
  rewrite hs. by apply: innovation_vertical.
rewrite Z in X.
have e0 : err_of (kX k) = Err (V 0 0 (Rmult (weight p r) (Rminus (g_height g) h))) vzero vzero vzero vzero.
  rewrite X /err_of !part_column //=. congr (Err _ _ _ _ _). rewrite /vmul /=. congr (V _ _ _); exact: Rmult_0_r.
have rest0 a' g' : at_rest (f_ins u) lat lon h dt q a' g'.
  rewrite /u /= hs /at_rest /=. split; first exact: hrest. split => //. by left.
pose a' := mvec (mtrans (quaternion_to_dcm q)) (balanced lat h' dt). pose g' := rest_gyro (quaternion_to_dcm q) lat dt.
rewrite /run_calls /do_call E. cbn [bind].
have [j [F [J [A G]]]] := feedback_rest _ _ _ _ _ _ _ _ (Rmult (weight p r) (Rminus (g_height g) h)) (rest0 a' g') P q1.
have hf : feed (take_estimate u) = Some (set_pending (set_ins (take_estimate u) j) (kX k) 0).
  have -> : take_estimate u = set_flag (set_kf (set_pending u (kX k) 1) (kf_reset k)) 0 by [].
  rewrite /feed /share /=. have -> : Rinv (IZR (max_iter 0)) *: kX k = kX k.
    have -> : Rinv (IZR (max_iter 0)) = 1 by exact: Rinv_1. by rewrite scale1r.
  by rewrite e0 F.
have Hdt : dt <> IZR 0 by apply: Rgt_not_eq; apply: Rdiv_lt_0_compat => //; exact: Rlt_0_1.
have [i [FI [I _]]] := sample_rest _ _ _ _ _ _ time q1 Hdt P' J.
rewrite /time_update hf /=.
have ht : o_gt_corr o <> IZR 0 /\ o_at_corr o <> IZR 0.
  move: hi; rewrite /initialize /is_zero. case: Req_EM_T => //= _. case: Req_EM_T => //= n1. by case: Req_EM_T.
rewrite /propagate /=.
have sm0 : f_smooth s = smooth_new five_nano 2 10 by move: hi; rewrite /initialize; case: ifP => // _ [<-].
have [sm hsm] : exists sm, smooth_update (smooth_new five_nano 2 10) x = Some sm.
  rewrite /smooth_update /=. case: Rlt_dec => _; by eexists.
rewrite hsm /= FI /=.
have -> : transfer i o = Some (blocks (phi_block i (o_gt_corr o) (o_at_corr o))).
  rewrite /transfer (transfer_place i lat lon h') //; try by case: ht. by move: I => [[]].
rewrite /=. case: hq => z0 n0.
rewrite {1}/zupt_step /= z0 /=. rewrite /nhc_step /=.
have -> : o_nhc o && ~~ o_odo o = false by case: n0 => ->; rewrite ?andbF.
rewrite /=. eexists; split; first reflexivity. rewrite /=.
move: I hrest => [[A1 [A2 [_ [_ [_ [A6 [A7 [A8 _]]]]]]]] _] [_ [_ [_ [_ [_ [B6 [B7 [B8 _]]]]]]]].
by rewrite A1 A2 A6 A7 A8 B6 B7 B8.
Qed.
Lemma first_fix_weights s0 nav o s g : initialize s0 nav o = Some s -> o_lb_gnss o = vzero -> gnss_check g = true ->
  Rlt 0 (fix_var o (vx (g_std g))) -> Rlt 0 (fix_var o (vy (g_std g))) -> Rlt 0 (fix_var o (vz (g_std g))) ->
  exists t, gnss_update s g = Some t /\
    kX (f_kf t) = column (fun b => if b == 0%N then vmul (weights nav o g) (pos_z (f_ins s) vzero (fix_place g)) else vzero).
Proof. move=> h1 h2 h3 h4 h5 h6. have [k [E X]] := first_fix _ _ _ _ _ h1 h2 h3 h4 h5 h6. eexists; split; [exact: E|exact: X]. Qed.
