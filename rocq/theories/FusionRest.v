(** The filter of a unit at rest. *)
From Coq Require Import Reals ZArith List Lia Lra.
From mathcomp Require Import all_ssreflect ssralg matrix.
From Verif Require Import RealMath EarthModel ConvertModel SmoothModel InsModel InsProofs InsRest InsSpec InsRest2 FusionBase Rfield KalmanModel KalmanSpec KalmanProofs FusionModel FusionSpec FusionProofs FusionFeed FusionCov.
Import GRing.Theory.
Local Open Scope ring_scope.

Lemma diagonal_pd n f : (forall i, Rlt 0 (@diagonal n f i i)) -> pd (@diagonal n f).
Proof.
move=> h x hx. rewrite diagonal_variance.
have [i hi] : exists i, x i ord0 <> 0.
  apply: Classical_Prop.NNPP => H; apply: hx; apply/matrixP => i j; rewrite mxE (ord1 j). apply: Classical_Prop.NNPP => H'; apply: H; by exists i.
rewrite (bigD1 i) //=. rewrite -big_filter.
apply: Rplus_lt_le_0_compat.
  apply: Rmult_lt_0_compat => //. exact: Rsqr_pos_lt.
apply: sum_nonneg => j. apply: Rmult_le_pos; [exact: Rlt_le|exact: Rle_0_sqr].
Qed.
Lemma diagonal_square n f : @diagonal n f *m diagonal f = diagonal (fun b => V (Rmult (vx (f b)) (vx (f b))) (Rmult (vy (f b)) (vy (f b))) (Rmult (vz (f b)) (vz (f b)))).
Proof.
apply/matrixP => i j. rewrite mul_diag_r !mxE eqxx. case: eqP => [->|_]; last by rewrite mul0r.
by case: (j %% 3)%N => [|[|k]].
Qed.
Lemma column_zero n f : (forall b, f b = vzero) -> @column n f = 0.
Proof. move=> h; apply/matrixP => i j; rewrite !mxE h. by case: (_ %% _)%N => [|[|k]]. Qed.
Lemma err_zero : err_of 0 = Err vzero vzero vzero vzero vzero.
Proof. by rewrite /err_of /part !mxE. Qed.
Lemma one_pd1 a : Rlt 0 a -> pd (one_by_one a).
Proof.
move=> h x hx. rewrite /one_by_one /variance mul_mx_scalar -scalemxAl mxE.
have := one_pd 1 x hx. rewrite /variance mulmx1 => H. exact: Rmult_lt_0_compat.
Qed.

(** a filter at rest without process noise *)
Definition still (o : option_t) (lat lon h : R) (q : quat) (a g : vec) (s : fusion) : Prop :=
  at_rest (f_ins s) lat lon h (Rdiv 1 (o_rate o)) q a g /\ f_opt s = o /\ f_Q0 s = 0 /\ psd (kP (f_kf s)) /\
  kX (f_kf s) = 0 /\ f_Xd s = 0.
Definition rest_options (o : option_t) : Prop :=
  Rlt 0 (o_rate o) /\ o_gt_corr o <> IZR 0 /\ o_at_corr o <> IZR 0 /\ o_lb_wheel o = vzero /\ o_zupta o = false /\
  Rlt 0 (o_zupt_std o) /\ Rlt 0 (o_nhc_std0 o) /\ Rlt 0 (o_nhc_std1 o).

Lemma rest_frame i j lat lon h dt q a g : s_nav j = s_nav i \/ (exists b m, s_nav j = nav_info (s_nav i) b m) ->
  s_dt j = s_dt i -> s_acce_pre j = s_acce_pre i -> s_gyro_pre j = s_gyro_pre i ->
  at_rest i lat lon h dt q a g -> at_rest j lat lon h dt q a g.
Proof. by rewrite /at_rest => -[->|[b [m ->]]] -> -> ->. Qed.

Lemma feed_still o lat lon h q a g s : still o lat lon h q a g s -> place_ok lat lon h -> qnorm2 q = 1 ->
  exists2 t, feed (take_estimate s) = Some t & still o lat lon h q a g t /\ f_smooth t = f_smooth s /\ f_idx t = f_idx s.
Proof.
move=> [hr [ho [hQ [hP [hX hd]]]]] P Hq.
have h1 : still o lat lon h q a g (take_estimate s) /\ f_smooth (take_estimate s) = f_smooth s /\ f_idx (take_estimate s) = f_idx s.
  rewrite /take_estimate; case: ifP => _ //.
move: h1; set u := take_estimate s => -[[hr' [ho' [hQ' [hP' [hX' hd']]]]] [hs hi]].
rewrite /feed; case: ifP => _; last by exists u.
rewrite /share hd' scaler0 err_zero.
have [j [F [J [A G]]]] := feedback_rest _ _ _ _ _ _ _ _ 0 hr' P Hq.
rewrite F /=. eexists; first reflexivity. split => //; split => //=. by move: J; rewrite Rplus_0_r.
Qed.

Lemma noise_zero phi dt : process_noise phi 0 dt = 0.
Proof. by rewrite /process_noise mulmx0 mul0mx addr0 !scaler0. Qed.

Lemma propagate_still o lat lon h q s t : place_ok lat lon h -> qnorm2 q = 1 -> rest_options o ->
  let dt := Rdiv 1 (o_rate o) in
  let a := mvec (mtrans (quaternion_to_dcm q)) (balanced lat h dt) in
  let g := rest_gyro (quaternion_to_dcm q) lat dt in
  still o lat lon h q a g s -> (up_cnt (f_smooth s) < int_max)%Z -> (static_cnt (f_smooth s) < int_max)%Z ->
  exists2 u, propagate s (Imu t g a) = Some u & still o lat lon h q a g u /\ smooth_update (f_smooth s) (Imu t g a) = Some (f_smooth u).
Proof.
move=> P Hq [hrate [hgt [hat _]]] dt a g [hr [ho [hQ [hP [hX hd]]]]] hc1 hc2.
have Hdt : dt <> IZR 0 by apply: Rgt_not_eq; apply: Rdiv_lt_0_compat => //; exact: Rlt_0_1.
have [sm hsm] : exists sm, smooth_update (f_smooth s) (Imu t g a) = Some sm.
  rewrite /smooth_update. cbv zeta.
  have -> : Z.ltb int_max (up_cnt (f_smooth s) + 1) = false by apply/Z.ltb_ge; lia.
  case: Rlt_dec => _; first by eexists.
  have -> : Z.ltb int_max (static_cnt (f_smooth s) + 1) = false by apply/Z.ltb_ge; lia.
  by eexists.
have [i [F [I _]]] := sample_rest _ _ _ _ _ _ t Hq Hdt P hr.
rewrite /propagate hsm /= F /=.
have -> : transfer i (f_opt s) = Some (blocks (phi_block i (o_gt_corr o) (o_at_corr o))).
  rewrite /transfer ho (transfer_place i lat lon h) //. by move: I => [[]].
rewrite /=. eexists; first reflexivity. split => //. rewrite /still /= ho hQ noise_zero addr0 hX mulmx0.
split => //; do 3!(split => //). exact: psd_conj.
Qed.

Lemma zupt_still o lat lon h q a g s : rest_options o -> still o lat lon h q a g s ->
  exists2 t, zupt_step s = Some t & still o lat lon h q a g t /\ f_smooth t = f_smooth s.
Proof.
move=> [_ [_ [_ [_ [hza [hz _]]]]]] [hr [ho [hQ [hP [hX hd]]]]]. rewrite /zupt_step.
case: ifP => _; last by exists s.
case: (is_static _); last first.
  eexists; first reflexivity. split; last by []. split; last by []. apply: (rest_frame (f_ins s)) => //. by right; eexists; eexists.
rewrite /zero_velocity ho hza.
have v0 : n_vn (s_nav (f_ins s)) = vzero by move: hr => [[_ []]].
rewrite v0 column_zero //.
pose std := Rmult (o_zupt_std o) (o_zupt_std o).
have pdR : pd (@diagonal 3 (fun _ => V std std std)).
  apply: diagonal_pd => i. rewrite mxE eqxx /std. case: (_ %% _)%N => [|[|k]] /=; exact: Rmult_lt_0_compat.
have [k hk] := update_defined _ _ (f_kf s) (blocks (fun _ c => zupt_h c)) 0 _ hP pdR.
rewrite -/std hk /=. eexists; first reflexivity. split => //=.
have [_ [kx _]] := update_some _ _ _ _ _ _ _ hk.
rewrite /still /= ho; split; first by (apply: (rest_frame (f_ins s)) => //; right; eexists; eexists).
split => //; split => //; split; last by rewrite kx mulmx0.
apply: update_psd hk => //. exact: pd_psd.
Qed.

Lemma nhc_still o lat lon h q a g s : rest_options o -> still o lat lon h q a g s ->
  exists2 t, nhc_step s = Some t & still o lat lon h q a g t /\ f_smooth t = f_smooth s.
Proof.
move=> [_ [_ [_ [hlb [_ [_ [hn0 hn1]]]]]]] [hr [ho [hQ [hP [hX hd]]]]]. rewrite /nhc_step.
case: ifP => _; last first.
  eexists; first reflexivity. split; last by []. split; last by []. apply: (rest_frame (f_ins s)) => //. by right; eexists; eexists.
rewrite /measure_nhc ho.
have v0 : n_vn (s_nav (f_ins s)) = vzero by move: hr => [[_ []]].
have -> : @column 3 (fun _ => wheel_velocity (f_ins s) o) = 0 by apply: column_zero => _; exact: wheel_rest.
have -> : lower2 (0 : 'cV[R]_3) = 0 by apply/matrixP => i j; rewrite !mxE.
rewrite diagonal_square. set Rn := diagonal _.
have pdR : pd Rn.
  apply: diagonal_pd => i. rewrite mxE eqxx. case: i => [[|[|k]] hk] //=; exact: Rmult_lt_0_compat.
set H := lower2 _.
have [k hk] := update_defined _ _ (f_kf s) H 0 _ hP pdR.
rewrite hk /=. eexists; first reflexivity. split => //=.
have [_ [kx _]] := update_some _ _ _ _ _ _ _ hk.
rewrite /still /= ho; split; first by (apply: (rest_frame (f_ins s)) => //; right; eexists; eexists).
split => //; split => //; split; last by rewrite kx mulmx0.
apply: update_psd hk => //. exact: pd_psd.
Qed.

Lemma smooth_counts s x s' : smooth_update s x = Some s' ->
  (up_cnt s' = up_cnt s + 1)%Z /\ (static_cnt s' = 0 \/ static_cnt s' = static_cnt s + 1)%Z.
Proof.
rewrite /smooth_update. cbv zeta. case: Z.ltb => //. case: Rlt_dec => _.
  case=> <- /=; split => //. by left.
case: Z.ltb => // -[<-] /=; split => //. by right.
Qed.

Lemma rest_epoch o lat lon h q s t : place_ok lat lon h -> qnorm2 q = 1 -> rest_options o ->
  let dt := Rdiv 1 (o_rate o) in
  let a := mvec (mtrans (quaternion_to_dcm q)) (balanced lat h dt) in
  let g := rest_gyro (quaternion_to_dcm q) lat dt in
  still o lat lon h q a g s -> (up_cnt (f_smooth s) < int_max)%Z -> (static_cnt (f_smooth s) < int_max)%Z ->
  exists2 u, time_update s (Imu t g a) = Some u & still o lat lon h q a g u /\ smooth_update (f_smooth s) (Imu t g a) = Some (f_smooth u).
Proof.
move=> P Hq Ho dt a g hs c1 c2.
have [s1 e1 [h1 [m1 _]]] := feed_still _ _ _ _ _ _ _ _ hs P Hq. rewrite -m1 in c1 c2.
have [s2 e2 [h2 m2]] := propagate_still _ _ _ _ _ _ t P Hq Ho h1 c1 c2.
have [s3 e3 [h3 m3]] := zupt_still _ _ _ _ _ _ _ _ Ho h2.
have [s4 e4 [h4 m4]] := nhc_still _ _ _ _ _ _ _ _ Ho h3.
rewrite /time_update e1 /= e2 /= e3 /= e4 /=. eexists; first reflexivity. split => //=. by rewrite -m1 m2 m4 m3.
Qed.

Lemma rest_history o lat lon h q ts : place_ok lat lon h -> qnorm2 q = 1 -> rest_options o ->
  let dt := Rdiv 1 (o_rate o) in
  let a := mvec (mtrans (quaternion_to_dcm q)) (balanced lat h dt) in
  let g := rest_gyro (quaternion_to_dcm q) lat dt in
  forall s, still o lat lon h q a g s -> (0 <= up_cnt (f_smooth s))%Z -> (up_cnt (f_smooth s) + Z.of_nat (length ts) <= int_max)%Z ->
  (static_cnt (f_smooth s) + Z.of_nat (length ts) <= int_max)%Z ->
  exists2 u, run_calls s (List.map (fun t => CallImu (Imu t g a)) ts) = Some u & still o lat lon h q a g u.
Proof.
move=> P Hq Ho dt a g. elim: ts => [|t ts IH] s hs /=; first by exists s.
move=> c0 c1 c2. have [u e [hu m]] := rest_epoch _ _ _ _ _ _ t P Hq Ho hs ltac:(lia) ltac:(lia).
rewrite e /=. have [k1 k2] := smooth_counts _ _ _ m. apply: IH => //; [lia|lia|]. case: k2 => ->; lia.
Qed.

(** with process noise: if no number becomes infinite, the unit stays at rest *)
Definition calm (o : option_t) (lat lon h : R) (q : quat) (a g : vec) (s : fusion) : Prop :=
  at_rest (f_ins s) lat lon h (Rdiv 1 (o_rate o)) q a g /\ f_opt s = o /\ kX (f_kf s) = 0 /\ f_Xd s = 0.
Lemma calm_epoch o lat lon h q s t u : place_ok lat lon h -> qnorm2 q = 1 -> Rlt 0 (o_rate o) ->
  o_lb_wheel o = vzero -> o_zupta o = false ->
  let dt := Rdiv 1 (o_rate o) in
  let a := mvec (mtrans (quaternion_to_dcm q)) (balanced lat h dt) in
  let g := rest_gyro (quaternion_to_dcm q) lat dt in
  calm o lat lon h q a g s -> time_update s (Imu t g a) = Some u -> calm o lat lon h q a g u.
Proof.
move=> P Hq hrate hlb hza dt a g hs /time_update_split[s1 [s2 [s3 [s4 [h1 h2 h3 h4 ->]]]]].
have Hdt : dt <> IZR 0 by apply: Rgt_not_eq; apply: Rdiv_lt_0_compat => //; exact: Rlt_0_1.
have c1 : calm o lat lon h q a g s1.
  have : calm o lat lon h q a g (take_estimate s).
    move: hs => [hr [ho [hX hd]]]. rewrite /take_estimate; case: ifP => _ //.
  move: h1; set w := take_estimate s. rewrite /feed; case: ifP => _; last by case=> <-.
  move=> /(bindP _ _ _)[j hj [<-]] [hr [ho [hX hd]]]. split => //.
  move: hj; rewrite /share hd scaler0 err_zero.
  have [j' [F [J _]]] := feedback_rest _ _ _ _ _ _ _ _ 0 hr P Hq. rewrite F => -[<-]. by move: J; rewrite Rplus_0_r.
have c2 : calm o lat lon h q a g s2.
  have [sm [i [phi [_ b2 _ ->]]]] := propagate_spec _ _ _ h2. move: c1 => [hr [ho [hX hd]]].
  have [i' [F [I _]]] := sample_rest _ _ _ _ _ _ t Hq Hdt P hr. move: b2; rewrite F => -[<-].
  split => //. split => //. split => //=. by rewrite hX mulmx0.
have c3 : calm o lat lon h q a g s3.
  move: c2 => [hr [ho [hX hd]]]. move: h3; rewrite /zupt_step. case: ifP => _; last by case=> <-.
  case: is_static; last first.
    case=> <-. split; last by []. apply: (rest_frame (f_ins s2)) => //. by right; eexists; eexists.
  have v0 : n_vn (s_nav (f_ins s2)) = vzero by move: hr => [[_ []]].
  rewrite /zero_velocity ho hza v0 column_zero // => /(bindP _ _ _)[w /(bindP _ _ _)[k hk [<-]] [<-]].
  have [_ [kx _]] := update_some _ _ _ _ _ _ _ hk.
  split; first by (apply: (rest_frame (f_ins s2)) => //; right; eexists; eexists).
  by rewrite /= kx mulmx0.
move: c3 => [hr [ho [hX hd]]]. move: h4; rewrite /nhc_step. case: ifP => _; last first.
  case=> <-. split; last by []. apply: (rest_frame (f_ins s3)) => //. by right; eexists; eexists.
have v0 : n_vn (s_nav (f_ins s3)) = vzero by move: hr => [[_ []]].
rewrite /measure_nhc ho.
have -> : @column 3 (fun _ => wheel_velocity (f_ins s3) o) = 0 by apply: column_zero => _; exact: wheel_rest.
have -> : lower2 (0 : 'cV[R]_3) = 0 by apply/matrixP => i j; rewrite !mxE.
move=> /(bindP _ _ _)[w /(bindP _ _ _)[k hk [<-]] [<-]]. have [_ [kx _]] := update_some _ _ _ _ _ _ _ hk.
split; first by (apply: (rest_frame (f_ins s3)) => //; right; eexists; eexists).
by rewrite /= kx mulmx0.
Qed.
Lemma calm_history o lat lon h q ts : place_ok lat lon h -> qnorm2 q = 1 -> Rlt 0 (o_rate o) ->
  o_lb_wheel o = vzero -> o_zupta o = false ->
  let dt := Rdiv 1 (o_rate o) in
  let a := mvec (mtrans (quaternion_to_dcm q)) (balanced lat h dt) in
  let g := rest_gyro (quaternion_to_dcm q) lat dt in
  forall s u, calm o lat lon h q a g s -> run_calls s (List.map (fun t => CallImu (Imu t g a)) ts) = Some u ->
  calm o lat lon h q a g u.
Proof.
move=> P Hq h1 h2 h3 dt a g. elim: ts => [|t ts IH] s u hs /=; first by case=> <-.
move=> /(bindP _ _ _)[w hw]. apply: IH. exact: calm_epoch hs hw.
Qed.
(** from the beginning *)
Lemma constraints_at_rest i0 o0 nav o s lat lon h q ts u : initialize (fusion_new i0 o0) nav o = Some s ->
  place_ok lat lon h -> nav_rest nav lat lon h q -> qnorm2 q = 1 -> Rlt 0 (o_rate o) ->
  o_lb_wheel o = vzero -> o_zupta o = false ->
  let dt := Rdiv 1 (o_rate o) in
  let a := mvec (mtrans (quaternion_to_dcm q)) (balanced lat h dt) in
  let g := rest_gyro (quaternion_to_dcm q) lat dt in
  run_calls s (List.map (fun t => CallImu (Imu t g a)) ts) = Some u ->
  n_pos (s_nav (f_ins u)) = V lat lon h /\ n_vn (s_nav (f_ins u)) = vzero /\ n_Cbn (s_nav (f_ins u)) = quaternion_to_dcm q /\
  n_gb (s_nav (f_ins u)) = vzero /\ n_ab (s_nav (f_ins u)) = vzero.
Proof.
move=> hi P hr Hq h1 h2 h3 dt a g hrun.
have c : calm o lat lon h q a g s.
  move: hi; rewrite /initialize; case: ifP => // _ [<-]. split => //. split; last by (split => //; left). exact: hr.
have [[[A1 [A2 [_ [_ [_ [A6 [A7 [A8 _]]]]]]]] _] _] := calm_history _ _ _ _ _ _ P Hq h1 h2 h3 _ _ c hrun.
by [].
Qed.
