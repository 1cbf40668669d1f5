(** Proofs about Src/Convert.cpp. *)
From Coq Require Import Reals Lra Psatz.
From Verif Require Import RealMath EarthModel ConvertModel ConvertSpec.
Open Scope R_scope.

(** ** direction cosine matrix of a quaternion *)
Lemma dcm_rotation q : qnorm2 q = 1 -> rotation (quaternion_to_dcm q).
Proof.
  destruct q as [w x y z]. unfold qnorm2; simpl. intros H.
  assert (W : w * w = 1 - x * x - y * y - z * z) by lra.
  repeat split; [apply mat_ext; simpl..|unfold mdet; simpl].
  all: ring_simplify; repeat rewrite <- ?Rmult_assoc.
  all: try (replace (w ^ 2) with (1 - x * x - y * y - z * z) by (rewrite <- W; ring); ring).
Qed.

Lemma dcm_mul p q : qnorm2 p = 1 -> qnorm2 q = 1 ->
  quaternion_to_dcm (qmul p q) = mmul (quaternion_to_dcm p) (quaternion_to_dcm q).
Proof.
  destruct p as [a b c d], q as [w x y z]. unfold qnorm2; simpl. intros H K.
  assert (A : a ^ 2 = 1 - b * b - c * c - d * d) by lra.
  assert (W : w ^ 2 = 1 - x * x - y * y - z * z) by lra.
  apply mat_ext; unfold quaternion_to_dcm; simpl; ring_simplify;
    rewrite ?A, ?W; ring.
Qed.

Lemma dcm_conj q : quaternion_to_dcm (qconj q) = mtrans (quaternion_to_dcm q).
Proof. destruct q; unfold quaternion_to_dcm; mring. Qed.
Lemma dcm_neg q : quaternion_to_dcm (qneg q) = quaternion_to_dcm q.
Proof. destruct q; unfold quaternion_to_dcm; mring. Qed.
Lemma dcm_rotate q v : qnorm2 q = 1 -> mvec (quaternion_to_dcm q) v = qrotate q v.
Proof.
  destruct q as [w x y z], v as [a b c]. unfold qnorm2; simpl. intros H.
  assert (W : w ^ 2 = 1 - x * x - y * y - z * z) by lra.
  apply vec_ext; simpl; ring_simplify; rewrite ?W; ring.
Qed.

(** ** Euler angles *)
Lemma euler_dcm_attitude r p h : euler_to_dcm (V r p h) = attitude r p h.
Proof. unfold attitude, euler_to_dcm; mring. Qed.

Lemma rot_x_rotation a : rotation (rot_x a).
Proof.
  assert (H := sin2_cos2 a). unfold Rsqr in H.
  repeat split; [apply mat_ext; simpl..|unfold mdet; simpl]; try ring; lra.
Qed.
Lemma rot_y_rotation a : rotation (rot_y a).
Proof.
  assert (H := sin2_cos2 a). unfold Rsqr in H.
  repeat split; [apply mat_ext; simpl..|unfold mdet; simpl]; try ring; lra.
Qed.
Lemma rot_z_rotation a : rotation (rot_z a).
Proof.
  assert (H := sin2_cos2 a). unfold Rsqr in H.
  repeat split; [apply mat_ext; simpl..|unfold mdet; simpl]; try ring; lra.
Qed.
Lemma rotation_mul a b : rotation a -> rotation b -> rotation (mmul a b).
Proof.
  intros (A & A' & D) (B & B' & E). repeat split.
  - rewrite mtrans_mmul, <- mmul_assoc, (mmul_assoc (mtrans a)), A, mmul_eye_l. exact B.
  - rewrite mtrans_mmul, <- mmul_assoc, (mmul_assoc b), B', mmul_eye_l. exact A'.
  - rewrite mdet_mmul, D, E. ring.
Qed.
Lemma attitude_rotation r p h : rotation (attitude r p h).
Proof. unfold attitude. auto using rotation_mul, rot_x_rotation, rot_y_rotation, rot_z_rotation. Qed.

Lemma half_cos a : cos a = 1 - 2 * (sin (a / 2) * sin (a / 2)).
Proof. replace a with (2 * (a / 2)) at 1 by field. rewrite cos_2a_sin. ring. Qed.
Lemma half_sin a : sin a = 2 * sin (a / 2) * cos (a / 2).
Proof. replace a with (2 * (a / 2)) at 1 by field. rewrite sin_2a. ring. Qed.

Lemma euler_quaternion_unit e : qnorm2 (euler_to_quaternion e) = 1.
Proof.
  destruct e as [r p h]. unfold qnorm2, euler_to_quaternion; simpl.
  assert (H1 := sin2_cos2 (r / 2)). assert (H2 := sin2_cos2 (p / 2)). assert (H3 := sin2_cos2 (h / 2)).
  unfold Rsqr in *.
  set (a := sin (r / 2)) in *. set (b := cos (r / 2)) in *. set (c := sin (p / 2)) in *. set (d := cos (p / 2)) in *.
  set (x := sin (h / 2)) in *. set (y := cos (h / 2)) in *.
  transitivity ((a * a + b * b) * (c * c + d * d) * (x * x + y * y)); [ring|].
  rewrite H1, H2, H3; ring.
Qed.

Lemma euler_dcm_quaternion e : quaternion_to_dcm (euler_to_quaternion e) = euler_to_dcm e.
Proof.
  destruct e as [r p h].
  assert (H1 := sin2_cos2 (r / 2)). assert (H2 := sin2_cos2 (p / 2)). assert (H3 := sin2_cos2 (h / 2)).
  unfold Rsqr in *. unfold euler_to_dcm, euler_to_quaternion, quaternion_to_dcm; simpl.
  rewrite (half_sin r), (half_sin p), (half_sin h), (half_cos r), (half_cos p), (half_cos h).
  set (a := sin (r / 2)) in *. set (b := cos (r / 2)) in *. set (c := sin (p / 2)) in *. set (d := cos (p / 2)) in *.
  set (x := sin (h / 2)) in *. set (y := cos (h / 2)) in *.
  assert (B : b ^ 2 = 1 - a ^ 2) by lra. assert (D : d ^ 2 = 1 - c ^ 2) by lra. assert (Y : y ^ 2 = 1 - x ^ 2) by lra.
  apply mat_ext; simpl; ring_simplify; rewrite ?B, ?D, ?Y; ring.
Qed.

Lemma cos_range_pos p : - (PI / 2) < p < PI / 2 -> 0 < cos p.
Proof. intros. apply cos_gt_0; lra. Qed.

Lemma euler_roundtrip r p h :
  - PI < r <= PI -> - (PI / 2) < p < PI / 2 -> - PI < h <= PI -> - (999 / 1000) < sin p < 999 / 1000 ->
  dcm_to_euler (euler_to_dcm (V r p h)) = Eu (Fin r) (Fin p) h.
Proof.
  intros Hr Hp Hh Hs. assert (C := cos_range_pos p Hp).
  unfold dcm_to_euler, euler_to_dcm; simpl.
  destruct (Rle_dec (- sin p) (- (999 / 1000))); [lra|].
  destruct (Rle_dec (999 / 1000) (- sin p)); [lra|].
  f_equal.
  - f_equal. rewrite (Rmult_comm (sin r)), (Rmult_comm (cos r)). apply atan2_polar; assumption.
  - replace (sin r * cos p * (sin r * cos p) + cos r * cos p * (cos r * cos p)) with (cos p * cos p).
    2:{ assert (H := sin2_cos2 r). unfold Rsqr in H.
        transitivity ((sin r * sin r + cos r * cos r) * (cos p * cos p)); [rewrite H; ring|ring]. }
    rewrite sqrt_square by lra. unfold xdiv. destruct (Req_EM_T (cos p) 0); [lra|].
    simpl. f_equal. rewrite Ropp_involutive, <- tan_def. apply atan_tan. lra.
  - apply atan2_polar; assumption.
Qed.

(** the pitch alone is recovered for every attitude with a pitch in the closed range *)
Lemma euler_pitch_roundtrip r p h :
  - (PI / 2) <= p <= PI / 2 -> e_pitch (dcm_to_euler (euler_to_dcm (V r p h))) = Fin p.
Proof.
  intros Hp.
  assert (E : e_pitch (dcm_to_euler (euler_to_dcm (V r p h))) =
              xatan (xdiv (- - sin p) (sqrt (sin r * cos p * (sin r * cos p) + cos r * cos p * (cos r * cos p))))).
  { unfold dcm_to_euler, euler_to_dcm; cbv zeta; simpl.
    destruct (Rle_dec _ _); [reflexivity|]. destruct (Rle_dec _ _); reflexivity. }
  rewrite E. clear E.
  replace (sin r * cos p * (sin r * cos p) + cos r * cos p * (cos r * cos p)) with (cos p * cos p).
  2:{ assert (H := sin2_cos2 r). unfold Rsqr in H.
      transitivity ((sin r * sin r + cos r * cos r) * (cos p * cos p)); [rewrite H; ring|ring]. }
  assert (C : 0 <= cos p) by (apply cos_ge_0; lra).
  rewrite sqrt_square by assumption. rewrite Ropp_involutive. unfold xdiv.
  destruct (Req_EM_T (cos p) 0) as [Z|Z].
  - assert (p = PI / 2 \/ p = - (PI / 2)) as [->| ->].
    { destruct (Req_dec p (PI / 2)); auto. destruct (Req_dec p (- (PI / 2))); auto.
      assert (0 < cos p) by (apply cos_gt_0; lra). lra. }
    + rewrite sin_PI2. destruct (Rlt_dec 0 1); [reflexivity|lra].
    + rewrite sin_neg, sin_PI2. destruct (Rlt_dec 0 (Ropp 1)); [lra|].
      destruct (Rlt_dec (Ropp 1) 0); [reflexivity|lra].
  - simpl. f_equal. rewrite <- tan_def. apply atan_tan.
    split; destruct Hp as [L U].
    + destruct L as [L|L]; [exact L|]. subst p. rewrite cos_neg, cos_PI2 in Z. lra.
    + destruct U as [U|U]; [exact U|]. subst p. rewrite cos_PI2 in Z. lra.
Qed.

(** near the upward vertical the heading returned is heading minus roll, when the pitch is exactly 90 degrees *)
Lemma euler_vertical_up r h : - PI < h - r <= PI ->
  dcm_to_euler (euler_to_dcm (V r (PI / 2) h)) = Eu NaN (Fin (PI / 2)) (h - r).
Proof.
  intros H. assert (P := euler_pitch_roundtrip r (PI / 2) h). assert (PI > 0) by apply PI_RGT_0.
  unfold dcm_to_euler, euler_to_dcm in *; simpl in *. rewrite sin_PI2 in *.
  destruct (Rle_dec (Ropp 1) (- (999 / 1000))); [|lra].
  simpl in P. rewrite P by lra. f_equal.
  replace (- sin r * cos h + cos r * 1 * sin h - (- cos r * sin h + sin r * 1 * cos h)) with (2 * sin (h - r))
    by (rewrite sin_minus; ring).
  replace (sin r * sin h + cos r * 1 * cos h + (cos r * cos h + sin r * 1 * sin h)) with (2 * cos (h - r))
    by (rewrite cos_minus; ring).
  apply atan2_polar; lra.
Qed.

(** pointing straight down the heading returned only has the sign of the true heading plus roll *)
Lemma euler_vertical_down r h :
  e_heading (dcm_to_euler (euler_to_dcm (V r (- (PI / 2)) h))) = atan2 (- 2 * sin (r + h)) 0 + PI.
Proof.
  unfold dcm_to_euler, euler_to_dcm; cbv zeta; simpl. rewrite sin_neg, sin_PI2.
  destruct (Rle_dec (- - (1)) (- (999 / 1000))); [lra|].
  destruct (Rle_dec (999 / 1000) (- - (1))); [|lra]. simpl. f_equal. f_equal.
  - rewrite sin_plus; ring.
  - ring.
Qed.

(** ** position quaternion *)
Lemma qne_unit lat lon : qnorm2 (lla_to_qne lat lon) = 1.
Proof.
  unfold qnorm2, lla_to_qne; simpl.
  set (p := - (1 / 4) * PI - 1 / 2 * lat). set (l := 1 / 2 * lon).
  assert (H1 := sin2_cos2 p). assert (H2 := sin2_cos2 l). unfold Rsqr in *.
  transitivity ((sin p * sin p + cos p * cos p) * (sin l * sin l + cos l * cos l)); [ring|]. rewrite H1, H2; ring.
Qed.

Lemma qne_dcm lat lon : quaternion_to_dcm (lla_to_qne lat lon) = lla_to_cne lat lon.
Proof.
  unfold lla_to_qne, lla_to_cne, quaternion_to_dcm; simpl.
  set (p := - (1 / 4) * PI - 1 / 2 * lat). set (l := 1 / 2 * lon).
  assert (S : sin lat = - cos (2 * p)).
  { unfold p. replace (2 * (- (1 / 4) * PI - 1 / 2 * lat)) with (- (PI / 2 + lat)) by field.
    rewrite cos_neg, <- Ropp_involutive at 1. f_equal. rewrite Rplus_comm. symmetry.
    rewrite cos_plus, cos_PI2, sin_PI2. ring. }
  assert (C : cos lat = - sin (2 * p)).
  { unfold p. replace (2 * (- (1 / 4) * PI - 1 / 2 * lat)) with (- (PI / 2 + lat)) by field.
    rewrite sin_neg, sin_plus, cos_PI2, sin_PI2. ring. }
  replace (cos lon) with (cos (2 * l)) by (f_equal; unfold l; field).
  replace (sin lon) with (sin (2 * l)) by (f_equal; unfold l; field).
  rewrite S, C, !cos_2a_sin, !sin_2a.
  assert (H1 := sin2_cos2 p). assert (H2 := sin2_cos2 l). unfold Rsqr in *.
  set (a := sin p) in *. set (b := cos p) in *. set (c := sin l) in *. set (d := cos l) in *.
  assert (B : b ^ 2 = 1 - a ^ 2) by lra. assert (D : d ^ 2 = 1 - c ^ 2) by lra.
  apply mat_ext; simpl; ring_simplify; rewrite ?B, ?D; ring.
Qed.

Lemma cne_axes lat lon v :
  mvec (lla_to_cne lat lon) v =
  vadd (vscale (vx v) (north lat lon)) (vadd (vscale (vy v) (east lat lon)) (vscale (- vz v) (up lat lon))).
Proof. destruct v; unfold lla_to_cne, north, east, up; vring. Qed.

Lemma lla_roundtrip lat lon : - (PI / 2) <= lat <= PI / 2 -> - PI < lon < PI ->
  qne_to_lla (lla_to_qne lat lon) = LL (Fin lat) (if Req_EM_T lat (PI / 2) then 0 else lon).
Proof.
  intros Hlat Hlon. assert (P := PI_RGT_0). unfold qne_to_lla, lla_to_qne; simpl.
  assert (CL : 0 < cos (1 / 2 * lon)) by (apply cos_gt_0; lra).
  set (p := - (1 / 4) * PI - 1 / 2 * lat).
  destruct (Req_EM_T lat (PI / 2)) as [E|E].
  - subst lat. assert (E : p = - (PI / 2)) by (unfold p; field). rewrite E.
    rewrite cos_neg, cos_PI2, sin_neg, sin_PI2. rewrite !Rmult_0_l.
    unfold xdiv, atan2. destruct (Req_EM_T 0 0); [|lra].
    destruct (Rlt_dec 0 0); [lra|]. destruct (Rlt_dec 0 (- (1) * cos (1 / 2 * lon))); [lra|].
    destruct (Rlt_dec (- (1) * cos (1 / 2 * lon)) 0); [|lra]. simpl. f_equal; [f_equal; field|ring].
  - assert (Hp : - (PI / 2) < p <= 0) by (unfold p; lra).
    assert (CP : 0 < cos p) by (apply cos_gt_0; lra).
    assert (W : 0 < cos p * cos (1 / 2 * lon)) by nra.
    unfold xdiv. destruct (Req_EM_T (cos p * cos (1 / 2 * lon)) 0); [lra|].
    simpl. f_equal.
    + f_equal. replace (sin p * cos (1 / 2 * lon) / (cos p * cos (1 / 2 * lon))) with (tan p).
      2:{ unfold tan. field. lra. }
      rewrite atan_tan by lra. unfold p. field.
    + rewrite (atan2_polar (cos p) (1 / 2 * lon)) by lra. field.
Qed.

(** on the antimeridian the latitude comes out as NaN: both components of the quotient vanish *)
Lemma lla_antimeridian lat : latitude (qne_to_lla (lla_to_qne lat PI)) = NaN.
Proof.
  unfold qne_to_lla, lla_to_qne; simpl. replace (1 / 2 * PI) with (PI / 2) by field.
  rewrite cos_PI2, !Rmult_0_r. unfold xdiv. destruct (Req_EM_T 0 0); [|lra].
  destruct (Rlt_dec 0 0); [lra|]. reflexivity.
Qed.

Fixpoint rfact (n : nat) : R := match n with O => 1 | S k => INR (S k) * rfact k end.
Lemma INR_fact n : INR (fact n) = rfact n.
Proof. induction n; [reflexivity|]. rewrite fact_simpl, mult_INR, IHn. reflexivity. Qed.

Lemma cos_taylor a : - 2 <= a <= 2 ->
  let cs := 1 - a ^ 2 / 2 + a ^ 4 / 24 - a ^ 6 / 720 in cs <= cos a <= cs + a ^ 8 / 40320.
Proof.
  intros [L U] cs. destruct (pre_cos_bound a 1 L U) as [A B].
  unfold cos_approx in *. cbn [sum_f_R0 Nat.mul Nat.add] in *. unfold cos_term in *.
  rewrite !INR_fact in *. cbn [Nat.mul Nat.add] in *.
  split; [eapply Rle_trans; [|exact A]|eapply Rle_trans; [exact B|]]; right; unfold cs; cbn [rfact INR]; simpl pow; field.
Qed.
Lemma sin_taylor a : 0 <= a <= 4 ->
  let sn := a - a ^ 3 / 6 + a ^ 5 / 120 - a ^ 7 / 5040 in sn <= sin a <= sn + a ^ 9 / 362880.
Proof.
  intros [L U] sn. destruct (pre_sin_bound a 1 L U) as [A B].
  unfold sin_approx in *. cbn [sum_f_R0 Nat.mul Nat.add] in *. unfold sin_term in *.
  rewrite !INR_fact in *. cbn [Nat.mul Nat.add] in *.
  split; [eapply Rle_trans; [|exact A]|eapply Rle_trans; [exact B|]]; right; unfold sn; cbn [rfact INR]; simpl pow; field.
Qed.
Lemma PI_lt : PI < 316 / 100.
Proof.
  destruct (Rlt_dec PI (316 / 100)) as [h|h]; [exact h|]. exfalso.
  assert (C : 0 <= cos (158 / 100)) by (apply cos_ge_0; lra).
  destruct (cos_taylor (158 / 100)) as [_ B]; [lra|]. lra.
Qed.
Lemma PI_sq_lt_10 : PI * PI < 10.
Proof. assert (P := PI_lt). assert (Q := PI_RGT_0). nra. Qed.

(** ** rotation vectors *)
Lemma Rabs_eq_0 x : Rabs x = 0 -> x = 0.
Proof. intros H. destruct (Req_dec x 0); auto. exfalso. apply (Rabs_no_R0 x); assumption. Qed.

Lemma vnorm_sq v : vnorm v * vnorm v = dot v v.
Proof. unfold vnorm. apply sqrt_sqrt. unfold dot. nra. Qed.
Lemma vnorm_nonneg v : 0 <= vnorm v. Proof. apply sqrt_pos. Qed.
Lemma vnorm_lt_iff v : vnorm v < PI <-> dot v v < PI * PI.
Proof.
  assert (P := PI_RGT_0). assert (S := vnorm_sq v). assert (N := vnorm_nonneg v). split; intros; nra.
Qed.
Lemma component_le v : Rabs (vx v) <= vnorm v /\ Rabs (vy v) <= vnorm v /\ Rabs (vz v) <= vnorm v.
Proof.
  assert (S := vnorm_sq v). assert (N := vnorm_nonneg v). unfold dot in S.
  repeat split; apply Rabs_le; nra.
Qed.

Lemma rv_closed v : PI <= vnorm v ->
  (rv_to_quaternion v = exact_quaternion v \/ rv_to_quaternion v = qneg (exact_quaternion v)) /\
  0 <= qw (rv_to_quaternion v).
Proof.
  intros H. assert (P := PI_RGT_0). unfold rv_to_quaternion, exact_quaternion.
  fold (dot v v). change (sqrt (dot v v)) with (vnorm v).
  destruct (Rlt_dec (dot v v) (PI * PI)) as [L|L]; [apply vnorm_lt_iff in L; lra|].
  destruct (Req_EM_T (vnorm v) 0); [lra|].
  destruct (Rlt_dec (cos (vnorm v / 2)) 0); simpl; split; try lra; [right|left];
    apply quat_ext; simpl; field; lra.
Qed.

Lemma exact_unit v : qnorm2 (exact_quaternion v) = 1.
Proof.
  unfold exact_quaternion. destruct (Req_EM_T (vnorm v) 0) as [e|n].
  - unfold qnorm2, qone; simpl; ring.
  - unfold qnorm2; simpl. assert (S := vnorm_sq v). unfold dot in S.
    assert (T := sin2_cos2 (vnorm v / 2)). unfold Rsqr in T.
    set (t := vnorm v) in *. set (s := sin (t / 2)) in *. set (c := cos (t / 2)) in *.
    replace (c * c + s * (vx v / t) * (s * (vx v / t)) + s * (vy v / t) * (s * (vy v / t)) + s * (vz v / t) * (s * (vz v / t)))
      with (c * c + s * s * ((vx v * vx v + vy v * vy v + vz v * vz v) / (t * t))) by (field; assumption).
    rewrite <- S. replace (t * t / (t * t)) with 1 by (field; assumption). lra.
Qed.

Lemma rv_series_norm v : vnorm v < PI ->
  let m := vnorm v * vnorm v / 4 in
  1 - m ^ 4 / 20160 <= qnorm2 (rv_to_quaternion v) <= 1.
Proof.
  intros H m. assert (P4 := PI_4). assert (PP := PI_RGT_0). assert (L := proj1 (vnorm_lt_iff v) H).
  unfold rv_to_quaternion. cbv zeta. fold (dot v v). destruct (Rlt_dec (dot v v) (PI * PI)); [|lra].
  assert (D : dot v v = 4 * m) by (unfold m; rewrite vnorm_sq; field).
  assert (Pi := PI_sq_lt_10).
  assert (M1 : 0 <= m < 5 / 2) by (assert (0 <= dot v v) by (unfold dot; nra); lra).
  assert (E : qnorm2 (let m0 := dot v v * (1 / 4) in
     let cs := 1 - m0 / 2 * (1 - m0 / 12 * (1 - m0 / 30)) in
     let sn := 1 - m0 / 6 * (1 - m0 / 20 * (1 - m0 / 42)) in
     Q cs (1 / 2 * sn * vx v) (1 / 2 * sn * vy v) (1 / 2 * sn * vz v))
     = 1 - m ^ 4 * (1 / 20160 - m / 50400 + m ^ 2 / 725760 - m ^ 3 / 25401600)).
  { cbv zeta. rewrite D. unfold qnorm2; simpl.
    transitivity ((1 - m / 2 * (1 - m / 12 * (1 - m / 30))) ^ 2 + (1 - m / 6 * (1 - m / 20 * (1 - m / 42))) ^ 2 * (dot v v / 4)).
    - unfold dot. field.
    - rewrite D. field. }
  cbv zeta in E |- *. rewrite E. set (B := 1 / 20160 - m / 50400 + m ^ 2 / 725760 - m ^ 3 / 25401600).
  assert (B0 : 0 <= B <= 1 / 20160).
  { unfold B. split.
    - assert (0 <= m ^ 2 * (1 / 725760 - m / 25401600)) by (apply Rmult_le_pos; [apply pow_le|]; lra). lra.
    - assert (0 <= m * (1 / 50400 - m / 725760)) by (apply Rmult_le_pos; lra).
      assert (0 <= m ^ 3) by (apply pow_le; lra). lra. }
  assert (0 <= m ^ 4) by (apply pow_le; lra). split; nra.
Qed.

Lemma rv_series_close v : vnorm v < PI ->
  let t := vnorm v / 2 in
  let q := rv_to_quaternion v in let x := exact_quaternion v in
  Rabs (qw q - qw x) <= t ^ 8 / 40320 /\
  Rabs (qx q - qx x) <= t ^ 9 / 362880 /\ Rabs (qy q - qy x) <= t ^ 9 / 362880 /\ Rabs (qz q - qz x) <= t ^ 9 / 362880.
Proof.
  intros H t. cbv zeta. assert (PP := PI_RGT_0). assert (P4 := PI_lt). assert (N := vnorm_nonneg v).
  assert (L := proj1 (vnorm_lt_iff v) H).
  assert (T : 0 <= t <= 158 / 100) by (unfold t; lra).
  assert (D : dot v v = 4 * t ^ 2) by (unfold t; rewrite <- vnorm_sq; field).
  destruct (component_le v) as (X & Y & Z).
  unfold rv_to_quaternion. cbv zeta. fold (dot v v). destruct (Rlt_dec (dot v v) (PI * PI)); [|lra].
  destruct (cos_taylor t) as [C1 C2]; [lra|]. destruct (sin_taylor t) as [S1 S2]; [lra|].
  assert (T8 : 0 <= t ^ 8 / 40320) by (assert (0 <= t ^ 8) by (apply pow_le; lra); lra).
  assert (T9 : 0 <= t ^ 9 / 362880) by (assert (0 <= t ^ 9) by (apply pow_le; lra); lra).
  unfold exact_quaternion. destruct (Req_EM_T (vnorm v) 0) as [e|n].
  - assert (t = 0) by (unfold t; lra). rewrite e in X, Y, Z.
    assert (vx v = 0) by (apply Rabs_eq_0; assert (0 <= Rabs (vx v)) by apply Rabs_pos; lra).
    assert (vy v = 0) by (apply Rabs_eq_0; assert (0 <= Rabs (vy v)) by apply Rabs_pos; lra).
    assert (vz v = 0) by (apply Rabs_eq_0; assert (0 <= Rabs (vz v)) by apply Rabs_pos; lra).
    cbv zeta. simpl. rewrite D, H0, H1, H2, H3. repeat split; apply Rabs_le; simpl; lra.
  - cbv zeta. simpl. rewrite D. fold t.
    assert (T0 : 0 < t) by (unfold t; lra).
    assert (V : vnorm v = 2 * t) by (unfold t; lra).
    assert (G : forall x, Rabs x <= vnorm v ->
      Rabs (1 / 2 * (1 - 4 * t ^ 2 * (1 / 4) / 6 * (1 - 4 * t ^ 2 * (1 / 4) / 20 * (1 - 4 * t ^ 2 * (1 / 4) / 42))) * x
            - sin t * (x / vnorm v)) <= t ^ 9 / 362880).
    { intros x Hx. rewrite V in *.
      replace (1 / 2 * (1 - 4 * t ^ 2 * (1 / 4) / 6 * (1 - 4 * t ^ 2 * (1 / 4) / 20 * (1 - 4 * t ^ 2 * (1 / 4) / 42))) * x
        - sin t * (x / (2 * t))) with (x / (2 * t) * ((t - t ^ 3 / 6 + t ^ 5 / 120 - t ^ 7 / 5040) - sin t)) by (field; lra).
      rewrite Rabs_mult.
      assert (A1 : Rabs (x / (2 * t)) <= 1).
      { unfold Rdiv. rewrite Rabs_mult, (Rabs_right (/ (2 * t))).
        2:{ apply Rle_ge, Rlt_le, Rinv_0_lt_compat; lra. }
        apply Rmult_le_reg_r with (2 * t); [lra|]. rewrite Rmult_assoc, Rinv_l by lra. lra. }
      assert (A2 : Rabs (t - t ^ 3 / 6 + t ^ 5 / 120 - t ^ 7 / 5040 - sin t) <= t ^ 9 / 362880) by (apply Rabs_le; lra).
      assert (0 <= Rabs (x / (2 * t))) by apply Rabs_pos.
      assert (0 <= Rabs (t - t ^ 3 / 6 + t ^ 5 / 120 - t ^ 7 / 5040 - sin t)) by apply Rabs_pos. nra. }
    replace (vnorm v / 2) with t by (unfold t; reflexivity).
    repeat split; try (apply G; assumption).
    replace (1 - 4 * t ^ 2 * (1 / 4) / 2 * (1 - 4 * t ^ 2 * (1 / 4) / 12 * (1 - 4 * t ^ 2 * (1 / 4) / 30)))
      with (1 - t ^ 2 / 2 + t ^ 4 / 24 - t ^ 6 / 720) by field.
    apply Rabs_le; lra.
Qed.

Lemma rv_norm_pos v : 0 < qnorm2 (rv_to_quaternion v).
Proof.
  destruct (Rlt_dec (vnorm v) PI) as [h|h].
  - assert (S := rv_series_norm v h). cbv zeta in S.
    assert (P := PI_RGT_0). assert (T := PI_sq_lt_10). assert (N := vnorm_nonneg v).
    set (m := vnorm v * vnorm v / 4) in *.
    assert (0 <= m <= 5 / 2) by (unfold m; nra).
    assert (m ^ 4 <= (5 / 2) ^ 4) by (apply pow_incr; lra). simpl in *. lra.
  - destruct (rv_closed v) as [[E|E] _]; [lra| |]; rewrite E, ?qnorm2_neg, exact_unit; lra.
Qed.

(** ** rotation matrix of a rotation vector *)
Lemma rv_dcm v : v <> vzero -> rv_to_DCM v = Some (quaternion_to_dcm (exact_quaternion v)).
Proof.
  intros Hv. unfold rv_to_DCM, exact_quaternion. fold (dot v v). change (sqrt (dot v v)) with (vnorm v).
  assert (S := vnorm_sq v). assert (N := vnorm_nonneg v).
  assert (Hn : vnorm v <> 0).
  { intros e. apply Hv. destruct (component_le v) as (X & Y & Z). rewrite e in X, Y, Z.
    apply vec_ext; simpl; apply Rabs_eq_0.
    - assert (0 <= Rabs (vx v)) by apply Rabs_pos; lra.
    - assert (0 <= Rabs (vy v)) by apply Rabs_pos; lra.
    - assert (0 <= Rabs (vz v)) by apply Rabs_pos; lra. }
  destruct (Req_EM_T (dot v v) 0); [nra|]. destruct (Req_EM_T (vnorm v) 0); [lra|]. f_equal.
  set (t := vnorm v) in *. rewrite (half_sin t), (half_cos t).
  assert (T := sin2_cos2 (t / 2)). unfold Rsqr in T.
  set (s := sin (t / 2)) in *. set (c := cos (t / 2)) in *.
  assert (D : dot v v = vx v * vx v + vy v * vy v + vz v * vz v) by reflexivity.
  set (x := vx v) in *. set (y := vy v) in *. set (z := vz v) in *.
  unfold skew, quaternion_to_dcm; simpl. rewrite <- S.
  assert (X2 : x * x = t * t - y * y - z * z) by lra.
  apply mat_ext; simpl; fold x y z; field_simplify_eq; try lra; try (rewrite ?X2; ring).
Qed.
