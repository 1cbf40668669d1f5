(** The mounting angles found are the least squares ones. *)
From Coq Require Import Reals Lra Psatz Permutation.
From mathcomp Require Import all_ssreflect ssralg matrix.
From Verif Require ConvertSpec ConvertProofs InsRest.
From Verif Require Import Rfield RealMath ConvertModel FusionBase KalmanModel KalmanSpec KalmanProofs InfoSpec InfoModel InfoProofs AngleModel AngleSpec.
Import GRing.Theory.
Local Open Scope ring_scope.

Lemma variance_scalar n (c : R) (x : 'cV[R]_n) : variance c%:M x = Rmult c (\sum_i (x i ord0 * x i ord0)).
Proof.
rewrite /variance mul_mx_scalar -scalemxAl mxE -[x^T]mulmx1 -/(variance 1%:M x) variance_one. by [].
Qed.
Lemma inv_scalar n (c : R) : c <> R0 -> invmx (c%:M : 'M[R]_n) = (Rinv c)%:M.
Proof.
move=> hc; rewrite invmx_scalar; congr (_%:M). rewrite /GRing.inv /= /Rinvx. by case: eqP.
Qed.
Lemma scalar_pd n (c : R) : Rlt 0 c -> pd (c%:M : 'M[R]_n).
Proof.
move=> hc x hx. rewrite variance_scalar. have := one_pd _ x hx. rewrite variance_one => H. exact: Rmult_lt_0_compat.
Qed.
Lemma record_trusted n : trusted (angle_record n).
Proof. split; first exact: tr_scalar_mx. apply: scalar_pd; lra. Qed.

(** vectors of the two kinds *)
Definition cv (t : vec) : 'cV[R]_3 := \matrix_(i, j) coord t i.
Definition of_cv (x : 'cV[R]_3) : vec := V (x (inord 0) ord0) (x (inord 1) ord0) (x (inord 2) ord0).
Lemma cvK t : of_cv (cv t) = t.
Proof. by case: t => a b c; rewrite /of_cv !mxE !inordK. Qed.
Lemma of_cvK x : cv (of_cv x) = x.
Proof.
apply/matrixP => i j; rewrite mxE (ord1 j) /of_cv /=. case: i => [[|[|[|i]]] hi] //=; by congr (x _ _); apply: val_inj; rewrite /= inordK.
Qed.
Lemma norm_cv t : \sum_i (cv t i ord0 * cv t i ord0) = dot t t.
Proof.
rewrite !big_ord_recl big_ord0 !mxE /= addr0 /dot -?[@GRing.add _]/Rplus -?[@GRing.mul _]/Rmult. ring.
Qed.
Lemma slip_cv t vb : \sum_i ((angle_y vb - angle_h vb *m cv t) i ord0 * (angle_y vb - angle_h vb *m cv t) i ord0) = slip t vb.
Proof.
rewrite !big_ord_recl big_ord0 !mxE !big_ord_recl !big_ord0 !mxE /= addr0 /slip /turned /cross /=.
rewrite -?[@GRing.add _]/Rplus -?[@GRing.mul _]/Rmult -?[@GRing.opp _]/Ropp /=. rewrite -?[GRing.zero _]/R0. ring.
Qed.

Lemma misfit_slip ns t : total_misfit (map angle_record ns) (cv t) = Rdiv (total_slip t (map body_velocity ns)) 100.
Proof.
elim: ns => [|n ns IH] /=; first by rewrite /Rdiv Rmult_0_l.
rewrite IH inv_scalar; last by apply: Rgt_not_eq; lra.
rewrite variance_scalar slip_cv. field.
Qed.
Lemma cost_cv ns t : Rplus (variance (invmx angle_start.2) (cv t - angle_start.1)) (total_misfit (map angle_record ns) (cv t))
  = angle_cost (map body_velocity ns) t.
Proof.
rewrite misfit_slip /angle_start /= subr0 inv_scalar; last by apply: Rgt_not_eq; lra.
rewrite variance_scalar norm_cv /angle_cost. field.
Qed.

Lemma start_symmetric : symmetric angle_start.2. Proof. exact: tr_scalar_mx. Qed.
Lemma start_pd : pd angle_start.2. Proof. apply: scalar_pd; lra. Qed.
Lemma all_trusted ns m : List.In m (map angle_record ns) -> trusted m.
Proof. elim: ns => //= n ns IH [<-|//]; exact: record_trusted. Qed.

Lemma angle_found ns : exists t, install_angle ns = Some t /\
  forall u, u <> t -> Rlt (angle_cost (map body_velocity ns) t) (angle_cost (map body_velocity ns) u).
Proof.
have [x [p E]] := run_defined _ _ angle_start.1 _ start_symmetric start_pd (all_trusted ns).
exists (of_cv x); split; first by rewrite /install_angle [angle_start]surjective_pairing E.
move=> u nu. rewrite -!cost_cv of_cvK.
apply: (run_least _ _ _ _ _ _ start_symmetric start_pd (all_trusted ns) E).
move=> h; apply: nu; by rewrite -h cvK.
Qed.
Lemma angle_order ns ns' : Permutation ns ns' -> install_angle ns = install_angle ns'.
Proof.
move=> Q. rewrite /install_angle [angle_start]surjective_pairing.
rewrite (run_order _ _ (map angle_record ns') _ _ start_symmetric start_pd (all_trusted ns)) //.
exact: Permutation_map.
Qed.

Local Open Scope R_scope.
Arguments body_velocity _ : simpl never.
Lemma slip_nonneg t vb : 0 <= slip t vb.
Proof. rewrite /slip. move: (vy _) (vz _) => a b. nra. Qed.
Lemma total_slip_nonneg t vbs : 0 <= total_slip t vbs.
Proof. elim: vbs => [|v vbs IH] /=; [lra|]. have := slip_nonneg t v. lra. Qed.
Lemma dot_nonneg t : 0 <= dot t t.
Proof. rewrite /dot. nra. Qed.
Lemma angle_least ns t u : install_angle ns = Some t -> angle_cost (map body_velocity ns) t <= angle_cost (map body_velocity ns) u.
Proof.
have [t' [-> H]] := angle_found ns => -[<-].
case: (Classical_Prop.classic (u = t')) => [->|N]; [lra|]. have := H u N. lra.
Qed.
Lemma straight_slip_list a b t vbs : (forall v, List.In v vbs -> exists s, v = vscale s (V 1 a b)) ->
  total_slip t vbs = forward vbs * slip t (V 1 a b).
Proof.
elim: vbs => [|v vbs IH] H /=; first by ring.
rewrite IH; last by move=> m I; apply: H; right.
have [s ->] : exists s, v = vscale s (V 1 a b) by apply: H; left.
rewrite /slip /turned /cross /vadd /vscale /=. ring.
Qed.
Lemma straight_slip a b t ns : (forall n, List.In n ns -> exists s, body_velocity n = vscale s (V 1 a b)) ->
  total_slip t (map body_velocity ns) = forward (map body_velocity ns) * slip t (V 1 a b).
Proof.
move=> H; apply: straight_slip_list => v I.
by have [n [<- J]] := proj1 (List.in_map_iff body_velocity ns v) I; apply: H.
Qed.
Lemma angle_straight a b t ns : (forall n, List.In n ns -> exists s, body_velocity n = vscale s (V 1 a b)) ->
  install_angle ns = Some t ->
  forward (map body_velocity ns) * slip t (V 1 a b) <= 250 * (a * a + b * b) /\ dot t t <= a * a + b * b.
Proof.
move=> H E. have L := angle_least _ _ (V 0 b (- a)) E. move: L; rewrite /angle_cost !(straight_slip a b) //.
have -> : slip (V 0 b (- a)) (V 1 a b) = 0 by rewrite /slip /turned /cross /=; ring.
have -> : dot (V 0 b (- a)) (V 0 b (- a)) = a * a + b * b by rewrite /dot /=; ring.
have A := total_slip_nonneg t (map body_velocity ns). rewrite (straight_slip a b) // in A.
have B := dot_nonneg t. rewrite Rmult_0_r. lra.
Qed.
Lemma angle_aligned ns : (forall n, List.In n ns -> vy (body_velocity n) = 0 /\ vz (body_velocity n) = 0) ->
  install_angle ns = Some vzero.
Proof.
move=> H. have [t [E _]] := angle_found ns. rewrite E; congr Some.
have H' n : List.In n ns -> exists s, body_velocity n = vscale s (V 1 0 0).
  move=> I; have [hy hz] := H n I. exists (vx (body_velocity n)).
  case: (body_velocity n) hy hz => x y z /= -> ->. rewrite /vscale /=. congr V; ring.
have [_ B] := angle_straight _ _ _ _ H' E. case: t {E} B => x y z; rewrite /dot /= => B.
have hx : x = 0 by nra. have hy : y = 0 by nra. have hz : z = 0 by nra. by rewrite hx hy hz.
Qed.
Lemma deg_is : deg = PI / 180. Proof. by rewrite /deg. Qed.
Lemma body_back vn roll pitch heading :
  mvec (ConvertSpec.attitude (roll * (PI / 180)) (pitch * (PI / 180)) (heading * (PI / 180))) (body_velocity (NavRecord vn (V roll pitch heading))) = vn.
Proof.
rewrite /body_velocity /= -ConvertProofs.euler_dcm_attitude.
have -> : vscale deg (V roll pitch heading) = V (roll * (PI / 180)) (pitch * (PI / 180)) (heading * (PI / 180)).
  by rewrite deg_is /vscale /=; congr V; ring.
apply: InsRest.dcm_back. rewrite ConvertProofs.euler_dcm_attitude. exact: ConvertProofs.attitude_rotation.
Qed.
Lemma body_east : body_velocity (NavRecord (V 0 10 0) (V 0 0 90)) = V 10 0 0.
Proof.
rewrite /body_velocity /= deg_is /mvec /mtrans /ConvertModel.euler_to_dcm /vscale /=.
have -> : Rmult (Rdiv PI 180) 90 = Rdiv PI 2 by field. rewrite !Rmult_0_r sin_0 cos_0 sin_PI2 cos_PI2.
congr V; ring.
Qed.
