(** Wheel speeds (C107). *)
From Coq Require Import Reals ZArith Lra.
From mathcomp Require Import all_ssreflect ssralg matrix.
From Verif Require Import Rfield RealMath InsModel FusionBase KalmanModel KalmanSpec KalmanProofs InnovationSpec FusionModel FusionProofs FusionRest FusionCases
  InnovationProofs WheelSpec ConvertModel InsRest2.
Import GRing.Theory.
Local Open Scope ring_scope.

Lemma says_value s : wheel_velocity (f_ins s) (f_opt s) = says s.
Proof.
rewrite /wheel_velocity /says /wheel_moves /ground_rate /Cbv. set A := euler_to_dcm _. set w := vsub _ _. set C := n_Cbn _. set v := n_vn _. set l := o_lb_wheel _.
clearbody A w C v l. case: A => *. case: C => *. case: v => *. case: w => *. case: l => *. rewrite /mvec /mmul /mtrans /vadd /cross /=. congr V; ring.
Qed.

Definition pick0 : 'M[R]_(1, 3) := \matrix_(_, j) (j == inord 0)%:R.
Lemma row_pick n (m : 'M[R]_(3, n)) : row_of m 0 = pick0 *m m.
Proof.
apply/matrixP => i j. rewrite !mxE. rewrite (bigD1 (inord 0)) //= big1 ?addr0; first by rewrite !mxE eqxx mul1r.
move=> k Hk. rewrite !mxE (negbTE Hk) mul0r. reflexivity.
Qed.
Definition wheel_rows (s : fusion) : 'M[R]_(3, 15) := blocks (fun _ c => vel_h (f_ins s) (f_opt s) c).

Lemma sq_pos x : x <> IZR 0 -> Rlt 0 (Rmult x x).
Proof. move=> H. nra. Qed.
Lemma one_pd1 x : x <> IZR 0 -> pd (one_by_one (Rmult x x)).
Proof.
move=> H. have -> : one_by_one (Rmult x x) = diagonal (fun _ => V (Rmult x x) (Rmult x x) (Rmult x x)).
  apply/matrixP => i j. rewrite !mxE !ord1 eqxx /=. by rewrite mulr1n.
apply: diagonal_pd => i. rewrite mxE eqxx !ord1 /=. exact: sq_pos.
Qed.
Lemma diag3_square a b c : diagonal (a := 3) (fun _ => V a b c) *m diagonal (fun _ => V a b c) = diagonal (fun _ => V (Rmult a a) (Rmult b b) (Rmult c c)).
Proof.
apply/matrixP => i j. rewrite !mxE (bigD1 i) //= big1 ?addr0; last by move=> k Hk; rewrite !mxE eq_sym (negbTE Hk) mul0r.
rewrite !mxE eqxx. case: (i == j) => //=; last by rewrite mulr0. by case: (i %% 3)%N => [|[|k]].
Qed.

Lemma wheel_gain s : psd (kP (f_kf s)) -> o_odo_std (f_opt s) <> IZR 0 ->
  (o_nhc (f_opt s) = true -> o_nhc_std0 (f_opt s) <> IZR 0 /\ o_nhc_std1 (f_opt s) <> IZR 0) ->
  exists (gain : 'M[R]_(15, 3)) (p : 'M[R]_15),
    (o_nhc (f_opt s) = false -> forall k, gain k (inord 1) = 0 /\ gain k (inord 2) = 0) /\
    forall vel, exists t, velocity_update_f s vel = Some t /\ kX (f_kf t) = gain *m column (fun _ => misfit s vel) /\ kP (f_kf t) = p.
Proof.
move=> hp so sn. rewrite /velocity_update_f.
have eh : forall n, vel_h (sensors_set (f_ins s) n) (f_opt s) = vel_h (f_ins s) (f_opt s) by [].
have ew : forall n, wheel_velocity (sensors_set (f_ins s) n) (f_opt s) = says s by move=> n; rewrite -says_value.
have ek : forall n, n_kd (s_nav (sensors_set (f_ins s) n)) = n_kd (s_nav (f_ins s)) by [].
rewrite eh ew ek. case E : (o_nhc (f_opt s)).
- have [n0 n1] := sn E.
  set h := blocks _. set r := _ *m _. have u : h *m kP (f_kf s) *m h^T + r \in unitmx.
    apply: pd_unit. apply: innovation_pd => //. rewrite /r diag3_square. apply: diagonal_pd => i. rewrite mxE eqxx.
    case: (_ %% _)%N => [|[|k]] /=; exact: sq_pos.
  exists (kP (f_kf s) *m h^T *m invmx (h *m kP (f_kf s) *m h^T + r)). eexists. split=> // vel.
  rewrite /kf_update u. cbn [bind]. eexists. split; [reflexivity|]. split; first reflexivity.
  cbn [f_kf set_kf set_ins set_flag on_meas_update set_monitor kP]. reflexivity.
- set h := blocks _. set r := one_by_one _. set h1 := row_of h 0.
  have u : h1 *m kP (f_kf s) *m h1^T + r \in unitmx by apply: pd_unit; apply: innovation_pd => //; exact: one_pd1.
  exists (kP (f_kf s) *m h1^T *m invmx (h1 *m kP (f_kf s) *m h1^T + r) *m pick0). eexists. split.
    move=> _ k. rewrite !mxE !big_ord_recl !big_ord0 !mxE.
    have -> : (inord 1 == inord 0 :> 'I_3) = false by rewrite -val_eqE /= !inordK.
    have -> : (inord 2 == inord 0 :> 'I_3) = false by rewrite -val_eqE /= !inordK.
    by rewrite !mulr0 !addr0.
  move=> vel. rewrite /kf_update u. cbn [bind]. eexists. split; [reflexivity|]. split; last (cbn [f_kf set_kf set_ins set_flag on_meas_update set_monitor kP]; reflexivity).
  cbn [f_kf set_kf set_ins set_flag on_meas_update set_monitor kX]. by rewrite row_pick mulmxA.
Qed.

(** a scalar measurement is never overcorrected *)
Lemma scalar_share n (k k' : kf n) (h : 'M[R]_(1, n)) (z : 'cV[R]_1) (x : R) : psd (kP k) -> Rlt 0 x ->
  kf_update k h z (one_by_one x) = Some k' -> exists c : R, Rle 0 c /\ Rlt c 1 /\ h *m kX k' = c *: z.
Proof.
move=> hp x0. rewrite /kf_update. case: ifP => // u [<-] /=.
set a : 'M[R]_1 := h *m kP k *m h^T.
have a0 : Rle 0 (a ord0 ord0).
  have -> : a ord0 ord0 = variance (kP k) h^T by rewrite /variance trmxK. exact: hp.
have es : h *m kP k *m h^T + one_by_one x = (Rplus (a ord0 ord0) x)%:M.
  apply/matrixP => i j. rewrite !ord1 /one_by_one -/a [LHS]mxE [X in _ + X]mxE [RHS]mxE eqxx !mulr1n //.
set y := Rplus (a ord0 ord0) x in es. have y0 : Rlt 0 y by rewrite /y; lra.
exists (Rdiv (a ord0 ord0) y). split; first by apply: Rmult_le_pos => //; apply: Rlt_le; exact: Rinv_0_lt_compat.
split; first by apply: (Rmult_lt_reg_r y) => //; rewrite /Rdiv Rmult_assoc Rinv_l; rewrite /y; lra.
rewrite !mulmxA -/a es invmx_scalar. have -> : a = (a ord0 ord0)%:M by apply/matrixP => i j; rewrite !ord1 [RHS]mxE eqxx mulr1n.
rewrite -scalar_mxM mul_scalar_mx. rewrite [X in X *: z]/(GRing.mul _ _). rewrite ?mxE ?eqxx ?mulr1n. congr (_ *: z). rewrite /Rdiv.
have ny : y != 0 by apply/eqP => e; have : y = IZR 0 := e; lra.
by rewrite -[y^-1]/(Rinvx y) /Rinvx ny.
Qed.
Lemma wheel_share s vel t : psd (kP (f_kf s)) -> o_odo_std (f_opt s) <> IZR 0 -> o_nhc (f_opt s) = false ->
  velocity_update_f s vel = Some t -> exists c : R, Rle 0 c /\ Rlt c 1 /\
  row_of (wheel_rows s) 0 *m kX (f_kf t) = (Rmult c (vx (misfit s vel)))%:M.
Proof.
move=> hp so nh. rewrite /velocity_update_f nh.
have ew : forall n, wheel_velocity (sensors_set (f_ins s) n) (f_opt s) = says s by move=> n; rewrite -says_value.
rewrite ew. cbv zeta. cbn [bind] => H. case: (bindP _ _ _ H) => k E [<-].
cbn [f_kf set_kf set_ins set_flag on_meas_update set_monitor kX].
have [c [c0 [c1 ec]]] := scalar_share _ _ _ _ _ _ hp (sq_pos _ so) E.
exists c. split=> //. split=> //. rewrite [X in _ = X]/=.
etransitivity; first exact: ec. apply/matrixP => i j. rewrite !ord1 !mxE /=. by rewrite inordK.
Qed.

Lemma column_zero3 (f : nat -> vec) : (forall k, f k = vzero) -> @column 3 f = 0.
Proof. move=> H. apply/matrixP => i j. rewrite !mxE H. by case: (_ %% _)%N => [|[|k]]. Qed.
Lemma wheel_explained s vel t : vscale (n_kd (s_nav (f_ins s))) vel = says s -> velocity_update_f s vel = Some t -> kX (f_kf t) = 0.
Proof.
move=> E. have Z : forall n, @column 3 (fun _ => vsub (wheel_velocity (sensors_set (f_ins s) n) (f_opt s)) (vscale (n_kd (s_nav (sensors_set (f_ins s) n))) vel)) = 0.
  move=> n. apply: column_zero3 => _.
  have -> : wheel_velocity (sensors_set (f_ins s) n) (f_opt s) = says s by rewrite -says_value.
  have -> : n_kd (s_nav (sensors_set (f_ins s) n)) = n_kd (s_nav (f_ins s)) by []. rewrite E. case: (says s) => a b c. rewrite /vsub /vzero /=. congr V; ring.
rewrite /velocity_update_f Z. cbv zeta. case: ifP => _ H; case: (bindP _ _ _ H) => k K [<-]; cbn [f_kf set_kf set_ins set_flag on_meas_update set_monitor].
- case/update_gain: K => g [-> _]. by rewrite mulmx0.
- case/update_gain: K => g [-> _]. by rewrite row_pick !mulmx0.
Qed.
Lemma wheel_case : let s := case_start 1 false (V 1 1 1) in
  psd (kP (f_kf s)) /\ o_odo_std (f_opt s) <> IZR 0 /\ o_nhc (f_opt s) = false /\
  (forall v, exists t, velocity_update_f s (V v 0 0) = Some t) /\ forall v, vx (misfit s (V v 0 0)) = Ropp v.
Proof.
move=> s. have A : psd (kP (f_kf s)) := proj1 fix_gain_case. have B : o_odo_std (f_opt s) <> IZR 0 by rewrite /=; lra.
split=> //. split=> //. split=> //. split.
- move=> v. case: (wheel_gain s A B) => // g [p [_ H]]. case: (H (V v 0 0)) => t [E _]. by exists t.
- move=> v. rewrite /misfit -says_value wheel_rest //. rewrite /vsub /vscale /=. ring.
Qed.
