(** What an update weighs against what: C134; the mounting angle tool: C135. *)
From Coq Require Import Reals Lra Permutation.
From mathcomp Require Import all_ssreflect ssralg matrix.
From Verif Require ConvertSpec ConvertProofs InsRest.
From Verif Require Import Rfield RealMath FusionBase KalmanModel KalmanSpec KalmanProofs InfoSpec InfoModel InfoProofs
  AngleModel AngleSpec AngleProofs.
Import GRing.Theory.
Local Open Scope ring_scope.

(** ** C134: the state error the filter believes in is zero with covariance [kP k]; among all errors x, the one the update
    yields, and no other, has the least misfit with that belief and with the measurement *)
Theorem C134_least : forall n m (k k' : kf n) (h : 'M[R]_(m, n)) (z : 'cV[R]_m) (r : 'M[R]_m),
  symmetric (kP k) -> symmetric r -> pd (kP k) -> pd r -> kf_update k h z r = Some k' ->
  forall x, x <> kX k' -> Rlt (misfit (kP k) 0 h r z (kX k')) (misfit (kP k) 0 h r z x).
Proof.
move=> n m k k' h z r sp sr hp hr E x nx.
have E' : kf_update k h (z - h *m 0) r = Some k' by rewrite mulmx0 subr0.
have [s' [h' _]] := update_info _ _ _ _ _ _ _ sp sr hp hr E.
have B := update_best _ _ _ _ _ _ _ 0 x sp sr hp hr E'. rewrite !add0r in B.
have := invmx_pd _ _ s' h' (x - kX k') (fun e => nx (subr0_eq e)).
rewrite B. move: (misfit _ _ _ _ _ _) (variance _ _) => a b. change (Rlt 0 b -> Rlt a (Rplus a b)). lra.
Qed.
(** the inverse of the covariance grows by what the measurement says, and the estimate is the measurement weighted with
    the two covariances *)
Theorem C134_information : forall n m (k k' : kf n) (h : 'M[R]_(m, n)) (z : 'cV[R]_m) (r : 'M[R]_m),
  symmetric (kP k) -> symmetric r -> pd (kP k) -> pd r -> kf_update k h z r = Some k' ->
  pd (kP k') /\ invmx (kP k') = invmx (kP k) + h^T *m invmx r *m h /\ kX k' = kP k' *m h^T *m invmx r *m z.
Proof. move=> n m k k' h z r sp sr hp hr E. by have [_ H] := update_info _ _ _ _ _ _ _ sp sr hp hr E. Qed.
(** measurements worked off in a row leave the same covariance in whatever order they come *)
Theorem C134_order : forall n (ms ms' : seq (measurement n)) (k : kf n),
  symmetric (kP k) -> pd (kP k) -> (forall m, List.In m ms -> trusted m) -> Permutation ms ms' ->
  exists k1 k2, update_all k ms = Some k1 /\ update_all k ms' = Some k2 /\ kP k1 = kP k2 /\
    invmx (kP k1) = invmx (kP k) + information ms.
Proof.
move=> n ms ms' k sp hp H Q.
have H' m : List.In m ms' -> trusted m by move=> I; apply: H; apply: (Permutation_in _ (Permutation_sym Q)).
have [a [A [_ [_ I1]]]] := updates_info _ _ _ sp hp H. have [b [B _]] := updates_info _ _ _ sp hp H'.
exists a, b. split=> //; split=> //; split=> //. exact: (updates_order _ _ _ _ _ _ sp hp H Q A B).
Qed.
Print Assumptions C134_least.
Print Assumptions C134_information.
Print Assumptions C134_order.
(** unit covariance, unit noise: the covariance has the inverse 2, and two such measurements are trusted ones *)
Example C134_case : forall n (z : 'cV[R]_n), exists k', kf_update (Kf 0 1%:M) 1%:M z 1%:M = Some k' /\
  symmetric (1%:M : 'M[R]_n) /\ pd (1%:M : 'M[R]_n) /\ kX k' = (Rdiv 1 2) *: z /\
  trusted (Measurement n (1%:M : 'M[R]_n) 1%:M z).
Proof.
move=> n z; have [k' [E [s [p [_ X]]]]] := unit_case n z. exists k'. do 4 (split=> //).
Qed.

(** ** C135 *)
Local Open Scope R_scope.
(** whatever the records, the angles printed are the least squares ones, and the only ones *)
Theorem C135_least : forall ns, exists t, install_angle ns = Some t /\
  forall u, u <> t -> angle_cost (map body_velocity ns) t < angle_cost (map body_velocity ns) u.
Proof. exact: angle_found. Qed.
(** the order of the records is of no importance *)
Theorem C135_order : forall ns ns', Permutation ns ns' -> install_angle ns = install_angle ns'.
Proof. exact: angle_order. Qed.
(** a car that always travels in the direction (1, a, b) of the sensor's axes: turned by the angles found, the part of the
    travel that is not forward fades with the squared speeds summed up *)
Theorem C135_straight : forall a b t ns, (forall n, List.In n ns -> exists s, body_velocity n = vscale s (V 1 a b)) ->
  install_angle ns = Some t ->
  forward (map body_velocity ns) * slip t (V 1 a b) <= 250 * (a * a + b * b) /\ dot t t <= a * a + b * b.
Proof. exact: angle_straight. Qed.
(** a sensor mounted along the car is left as it is *)
Theorem C135_aligned : forall ns, (forall n, List.In n ns -> vy (body_velocity n) = 0 /\ vz (body_velocity n) = 0) ->
  install_angle ns = Some vzero.
Proof. exact: angle_aligned. Qed.
(** the velocities meant above: turned by the recorded roll, pitch and heading (degrees) they are the recorded ones in north, east and down *)
Theorem C135_body : forall vn roll pitch heading,
  mvec (ConvertSpec.attitude (roll * (PI / 180)) (pitch * (PI / 180)) (heading * (PI / 180))) (body_velocity (NavRecord vn (V roll pitch heading))) = vn.
Proof. exact: body_back. Qed.
Print Assumptions C135_least.
Print Assumptions C135_order.
Print Assumptions C135_body.
Print Assumptions C135_straight.
Print Assumptions C135_aligned.
(** a level car heading north at 10 m/s that slides east at 1 m/s, as the sensor has it *)
Example C135_case : body_velocity (NavRecord (V 10 1 0) vzero) = vscale 10 (V 1 (1 / 10) 0).
Proof.
rewrite /body_velocity /mvec /mtrans /ConvertModel.euler_to_dcm /vscale /vzero /= !Rmult_0_r sin_0 cos_0.
congr V; field.
Qed.
(** heading east: velocity to the east is velocity ahead *)
Example C135_case_east : body_velocity (NavRecord (V 0 10 0) (V 0 0 90)) = V 10 0 0.
Proof. exact: body_east. Qed.
