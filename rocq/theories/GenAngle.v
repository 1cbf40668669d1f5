(** Installation angles that are applied with the wrong sign. *)
From Coq Require Import Reals Lra.
From Verif Require Import RealMath ConvertModel ConvertSpec ConvertProofs InsRest FusionBase AhrsLevel.
Open Scope R_scope.

Lemma dcm_rotation e : rotation (euler_to_dcm e).
Proof. destruct e as [a b c]. rewrite euler_dcm_attitude. apply attitude_rotation. Qed.
Lemma dcm_undo m u : rotation m -> mvec (mtrans m) (mvec m u) = u.
Proof. intros [H _]. rewrite <- mvec_mmul, H. destruct u. unfold mvec, eye; cbn. f_equal; ring. Qed.

(** a velocity straight ahead in one vehicle, seen in a vehicle with the angles negated *)
Lemma negated_angles a b c u v :
  mvec (euler_to_dcm (V (- a) (- b) (- c))) u = V v 0 0 ->
  vx (mvec (euler_to_dcm (V a b c)) u) = (1 - 2 * Rsqr (cos a) * (1 - Rsqr (cos b) * Rsqr (cos c))) * v.
Proof.
intros H. rewrite <- (dcm_undo _ u (dcm_rotation (V (- a) (- b) (- c)))). rewrite H.
pose proof (sin2_cos2 a) as A. pose proof (sin2_cos2 b) as B. pose proof (sin2_cos2 c) as C.
unfold mvec, mtrans, euler_to_dcm. cbn [vx vy vz m00 m01 m02 m10 m11 m12 m20 m21 m22]. rewrite !cos_neg, !sin_neg. unfold Rsqr in *.
assert (sin a * sin a = 1 - cos a * cos a) as A' by lra. assert (sin b * sin b = 1 - cos b * cos b) as B' by lra. assert (sin c * sin c = 1 - cos c * cos c) as C' by lra.
transitivity (((cos b * cos b) * (cos c * cos c) - (cos a * cos a - sin a * sin a) * (sin c * sin c + (sin b * sin b) * (cos c * cos c))) * v); [ring |].
rewrite A', B', C'. ring.
Qed.

Lemma deg_bounds : 1716 / 100000 < deg /\ deg < 176 / 10000.
Proof. pose proof PI_lower. pose proof PI_lt. unfold deg. lra. Qed.
Lemma sin_low x : 0 <= x -> x <= 1 -> x - x * x * x / 6 <= sin x.
Proof.
intros A B. destruct (pre_sin_bound x 0 A ltac:(lra)) as [L _]. unfold sin_approx, sin_term in L. cbn in L. 
apply Rle_trans with (2 := L). apply Req_le. field.
Qed.

(** at least 0.8 percent are missing *)
Lemma labelled_loss : 8 / 1000 <= 2 * Rsqr (cos (3 * deg)) * (1 - Rsqr (cos (2 * deg)) * Rsqr (cos (4 * deg))).
Proof.
destruct deg_bounds as [L U]. 
assert (sin (3 * deg) < 3 * deg) as S3 by (apply sin_lt_x; lra).
assert (0 < sin (3 * deg)) as P3. { apply sin_gt_0; [lra |]. pose proof PI_lower. lra. }
pose proof (sin_low (4 * deg) ltac:(lra) ltac:(lra)) as S4.
pose proof (sin2_cos2 (3 * deg)) as A. pose proof (sin2_cos2 (4 * deg)) as B. pose proof (sin2_cos2 (2 * deg)) as C.
assert (Rsqr (cos (2 * deg)) <= 1) as Cb by (pose proof (Rle_0_sqr (sin (2 * deg))); lra).
assert (68 / 1000 <= sin (4 * deg)) as S4'.
{ apply Rle_trans with (2 := S4). set (x := 4 * deg) in *. assert (6864 / 100000 < x) by (unfold x; lra). assert (x < 704 / 10000) by (unfold x; lra).
  assert (x * x <= 5 / 1000) by nra. nra. }
assert (4624 / 1000000 <= Rsqr (sin (4 * deg))) as Q4 by (unfold Rsqr; nra).
assert (Rsqr (sin (3 * deg)) <= 3 / 1000) as Q3 by (unfold Rsqr; nra).
set (p := Rsqr (cos (3 * deg))) in *. set (q := Rsqr (cos (4 * deg))) in *. set (r := Rsqr (cos (2 * deg))) in *.
assert (0 <= q) by apply Rle_0_sqr. assert (r * q <= 1 * q) by (apply Rmult_le_compat_r; lra).
assert (997 / 1000 <= p) by lra. assert (4624 / 1000000 <= 1 - r * q) by lra. nra.
Qed.
