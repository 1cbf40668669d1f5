(** The innovation test (C86). *)
From Coq Require Import Reals ZArith Lra.
From mathcomp Require Import all_ssreflect ssralg matrix.
From Verif Require Import Rfield RealMath InsModel FusionBase KalmanModel KalmanSpec KalmanProofs InnovationModel InnovationSpec FusionModel FusionProofs FusionRest FusionCases.
Import GRing.Theory.
Local Open Scope ring_scope.

Lemma x2_value n m (k k' : tested n) (h : 'M[R]_(m, n)) (z : 'cV[R]_m) (r : 'M[R]_m) :
  tested_update k h z r = Some k' -> get_x2 k' = Rabs (variance (innovation_cov (kP (t_kf k)) h r) z).
Proof.
rewrite /tested_update /get_x2. case E: (kf_update _ _ _ _) => [k1|] // [<-] /=.
by rewrite /ak_of /cvk invmxK.
Qed.
Lemma never_counts n m (k k' : tested n) (h : 'M[R]_(m, n)) (z : 'cV[R]_m) (r : 'M[R]_m) :
  tested_update k h z r = Some k' -> t_cnt k' = 0%Z.
Proof. rewrite /tested_update. by case E: (kf_update _ _ _ _) => [k1|] // [<-]. Qed.
(** one gain for every observation *)
Lemma same_gain n m (k : tested n) (h : 'M[R]_(m, n)) (r : 'M[R]_m) : innovation_cov (kP (t_kf k)) h r \in unitmx ->
  exists (gain : 'M[R]_(n, m)) (p : 'M[R]_n), forall z, exists k', tested_update k h z r = Some k' /\ kX (t_kf k') = gain *m z /\ kP (t_kf k') = p.
Proof.
rewrite /innovation_cov => u. pose g := kP (t_kf k) *m h^T *m invmx (h *m kP (t_kf k) *m h^T + r).
exists g, ((1%:M - g *m h) *m kP (t_kf k) *m (1%:M - g *m h)^T + g *m r *m g^T) => z.
rewrite /tested_update /kf_update u. by eexists; split; first reflexivity.
Qed.
(** the gain is not zero if the measurement says anything about the states *)
Lemma wrong_scalar : exists (k k' : tested 1) (h : 'M[R]_1) (z : 'cV[R]_1) (r : 'M[R]_1),
  pd (kP (t_kf k)) /\ pd r /\ tested_update k h z r = Some k' /\ get_x2 k' = IZR 4 /\ normalised (innovation_cov (kP (t_kf k)) h r) z = Rdiv 1 4.
Proof.
have pd_s : forall c : R, Rlt 0 c -> pd (c%:M : 'M[R]_1).
  move=> c c0 x x0. rewrite /variance mul_mx_scalar -scalemxAl mxE mxE big_ord_recl big_ord0 addr0 mxE.
  apply: Rmult_lt_0_compat => //. have [e|e] := Req_dec (x ord0 ord0) 0; last by rewrite -[X in Rlt _ X]/(Rmult (x ord0 ord0) (x ord0 ord0)); nra.
  case: x0. apply/matrixP => i j. by rewrite !ord1 mxE e.
pose k := Tested (Kf 0 (IZR 2)%:M : kf 1) 0 0%Z 1.
have e4 : innovation_cov (kP (t_kf k)) 1%:M (IZR 2)%:M = (IZR 4)%:M :> 'M[R]_1.
  rewrite /innovation_cov /= mul1mx trmx1 mulmx1 -raddfD. congr (_%:M). by rewrite -[LHS]/(Rplus 2 2); lra.
have u : ((IZR 4)%:M : 'M[R]_1) \in unitmx.
  rewrite unitmxE det_scalar expr1. apply/unitrP. exists (Rdiv 1 4). by split; rewrite -[LHS]/(Rmult _ _) -[RHS]/(IZR 1); lra.
have up : exists k', tested_update k 1%:M 1%:M (IZR 2)%:M = Some k'.
  rewrite /tested_update /kf_update -/(innovation_cov (kP (t_kf k)) 1%:M (IZR 2)%:M) e4 u. by eexists.
have [k' E] := up. exists k, k', 1%:M, 1%:M, (IZR 2)%:M.
split; first by apply: pd_s; lra. split; first by apply: pd_s; lra. split; first exact: E. rewrite (x2_value _ _ _ _ _ _ _ E) /normalised e4. split.
- rewrite /variance trmx1 mul1mx mulmx1 mxE eqxx mulr1n. rewrite Rabs_pos_eq //. lra.
- rewrite trmx1 mul1mx mulmx1. rewrite invmx_scalar mxE eqxx mulr1n. have n4 : (IZR 4 : R) != 0 by apply/eqP => e; have := e; rewrite -[LHS]/(IZR 4) -[RHS]/(IZR 0); lra.
  rewrite -[LHS]/(Rinvx (IZR 4)) /Rinvx n4. lra.
Qed.

(** the filter of the library: every fix with the same accuracies gets the same gain *)
Lemma fix_same_gain s std : innovation_cov (kP (f_kf s)) (blocks (a := 3) (fun _ c => pos_h (f_ins s) (o_lb_gnss (f_opt s)) c))
    (fix_noise (f_opt s) (Gnss 0 0 0 std 0 4)) \in unitmx ->
  exists (gain : 'M[R]_(15, 3)) (p : 'M[R]_15), forall g, g_std g = std -> gnss_check g = true ->
    exists t, gnss_update s g = Some t /\ kX (f_kf t) = gain *m column (fun _ => pos_z (f_ins s) (o_lb_gnss (f_opt s)) (fix_place g)) /\
    kP (f_kf t) = p.
Proof.
rewrite /innovation_cov => u.
pose h : 'M[R]_(3, 15) := blocks (a := 3) (fun _ c => pos_h (f_ins s) (o_lb_gnss (f_opt s)) c).
pose r : 'M[R]_3 := fix_noise (f_opt s) (Gnss 0 0 0 std 0 4).
pose g := kP (f_kf s) *m h^T *m invmx (h *m kP (f_kf s) *m h^T + r).
exists g, ((1%:M - g *m h) *m kP (f_kf s) *m (1%:M - g *m h)^T + g *m r *m g^T) => fx es ck.
rewrite /gnss_update ck /measure_pos /kf_update.
have -> : fix_noise (f_opt s) fx = r by rewrite /r /fix_noise es.
cbn [set_ins f_kf f_ins f_opt].
change (pos_h (mode_set (sensors_set (f_ins s) SENSOR_GNSS) (Z.to_nat (Z.modulo (g_mode fx) 65536))) (o_lb_gnss (f_opt s))) with
  (pos_h (f_ins s) (o_lb_gnss (f_opt s))).
rewrite -/h u. cbn [bind]. by eexists; split; first reflexivity.
Qed.

Lemma fix_gain_defined s std : psd (kP (f_kf s)) -> Rlt 0 (o_gnss_scale (f_opt s)) -> Rlt 0 (vx std) -> Rlt 0 (vy std) -> Rlt 0 (vz std) ->
  exists (gain : 'M[R]_(15, 3)) (p : 'M[R]_15), forall g, g_std g = std -> gnss_check g = true ->
    exists t, gnss_update s g = Some t /\ kX (f_kf t) = gain *m column (fun _ => pos_z (f_ins s) (o_lb_gnss (f_opt s)) (fix_place g)) /\
    kP (f_kf t) = p.
Proof.
move=> hp c x y z. apply: fix_same_gain. apply: pd_unit. apply: innovation_pd => //.
apply: diagonal_pd => i. rewrite mxE eqxx. cbn [g_std]. case: (_ %% _)%N => [|[|k]] /=; apply: Rmult_lt_0_compat => //; exact: Rmult_lt_0_compat.
Qed.
Lemma fix_gain_case : psd (kP (f_kf (case_start 1 false (V 1 1 1)))) /\ Rlt 0 (o_gnss_scale (f_opt (case_start 1 false (V 1 1 1)))).
Proof.
split; last by cbn; lra.
rewrite [kP _]/=. set d := diagonal _.
have -> : d *m d = d *m 1%:M *m d^T by rewrite mulmx1 (diagonal_symmetric 15).
apply: psd_conj. apply: pd_psd. exact: one_pd.
Qed.
