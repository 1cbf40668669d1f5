(** The innovation test of the Kalman filter: C86. *)
From Coq Require Import Reals ZArith.
From mathcomp Require Import all_ssreflect ssralg matrix.
From Verif Require Import FusionSpec Rfield RealMath InsModel FusionBase KalmanModel KalmanSpec InnovationModel InnovationSpec FusionModel FusionCases InnovationProofs.
Import GRing.Theory.
Local Open Scope ring_scope.

(** ** C86: what GetX2 answers after an update: the innovation weighted with its covariance and not with the inverse *)
Theorem C86_statistic_partial : forall n m (k k' : tested n) (h : 'M[R]_(m, n)) (z : 'cV[R]_m) (r : 'M[R]_m),
  tested_update k h z r = Some k' -> get_x2 k' = Rabs (variance (innovation_cov (kP (t_kf k)) h r) z).
Proof. exact x2_value. Qed.
Print Assumptions C86_statistic_partial.
(** REFUTED: an innovation of half its standard deviation gives 4 instead of 1/4 *)
Theorem C86_not_normalised : exists (k k' : tested 1) (h : 'M[R]_1) (z : 'cV[R]_1) (r : 'M[R]_1),
  pd (kP (t_kf k)) /\ pd r /\ tested_update k h z r = Some k' /\
  get_x2 k' = IZR 4 /\ normalised (innovation_cov (kP (t_kf k)) h r) z = Rdiv 1 4.
Proof. exact wrong_scalar. Qed.
Print Assumptions C86_not_normalised.
(** REFUTED: no observation is rejected; all are used with one gain, and the counter of rejections is always zero *)
Theorem C86_never_rejects : forall n m (k : tested n) (h : 'M[R]_(m, n)) (r : 'M[R]_m), innovation_cov (kP (t_kf k)) h r \in unitmx ->
  exists (gain : 'M[R]_(n, m)) (p : 'M[R]_n), forall z, exists k',
    tested_update k h z r = Some k' /\ kX (t_kf k') = gain *m z /\ kP (t_kf k') = p.
Proof. exact same_gain. Qed.
Print Assumptions C86_never_rejects.
Theorem C86_counter : forall n m (k k' : tested n) (h : 'M[R]_(m, n)) (z : 'cV[R]_m) (r : 'M[R]_m),
  tested_update k h z r = Some k' -> t_cnt k' = 0%Z.
Proof. exact never_counts. Qed.
Print Assumptions C86_counter.
(** the same for fixes: every fix with a known mode is used, with a gain that does not depend on its place *)
Theorem C86_fix_never_rejected : forall s std, psd (kP (f_kf s)) -> Rlt 0 (o_gnss_scale (f_opt s)) ->
  Rlt 0 (vx std) -> Rlt 0 (vy std) -> Rlt 0 (vz std) ->
  exists (gain : 'M[R]_(15, 3)) (p : 'M[R]_15), forall g, g_std g = std -> fix_mode (g_mode g) = true ->
    exists t, gnss_update s g = Some t /\
    kX (f_kf t) = gain *m column (fun _ => pos_z (f_ins s) (o_lb_gnss (f_opt s)) (fix_place g)) /\ kP (f_kf t) = p.
Proof.
  move=> s std H1 H2 H3 H4 H5. case: (fix_gain_defined s std H1 H2 H3 H4 H5) => gain [p H]. exists gain, p => g. rewrite -mode_rule. exact: H.
Qed.
Print Assumptions C86_fix_never_rejected.
Example C86_fix_case : psd (kP (f_kf (case_start 1 false (V 1 1 1)))) /\ Rlt 0 (o_gnss_scale (f_opt (case_start 1 false (V 1 1 1)))) /\
  exists u, gnss_update (case_start 1 false (V 1 1 1)) (case_fix 100) = Some u /\ kX (f_kf u) <> 0.
Proof. case: fix_gain_case => a b. split=> //. split=> //. case: case_erased => u [v [H [K _]]]. by exists u. Qed.
