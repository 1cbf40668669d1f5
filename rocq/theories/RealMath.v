(** Three-vectors, 3x3 matrices and quaternions over the real numbers, with the Eigen operations the
    code uses (Src/RgioeMath.h:32-42: Eigen::Vector3d, Matrix3d, Quaternion).
    Simplification: every floating point number is a real number and every operation is exact; the
    outcomes a C double has beyond that (infinities and NaN) are kept where the code can produce
    them, in the type [num]. Signed zeros are not modelled: a zero denominator counts as +0. *)
From Coq Require Import Reals Lra Psatz.
Open Scope R_scope.

(** Src/RgioeMath.h:32 Vec3d *)
Record vec := V { vx : R; vy : R; vz : R }.
(** Src/RgioeMath.h:35 Mat3d: rows of entries *)
Record mat := M { m00 : R; m01 : R; m02 : R; m10 : R; m11 : R; m12 : R; m20 : R; m21 : R; m22 : R }.
(** Src/RgioeMath.h:39 Quad, scalar part first as in the constructor Quad{w, x, y, z} *)
Record quat := Q { qw : R; qx : R; qy : R; qz : R }.

(** Eigen vector operations, as used for instance in Src/InsCore.cpp:61-73 *)
Definition vzero : vec := V 0 0 0.
(** Eigen: a + b *)
Definition vadd (a b : vec) : vec := V (vx a + vx b) (vy a + vy b) (vz a + vz b).
(** Eigen: a - b *)
Definition vsub (a b : vec) : vec := V (vx a - vx b) (vy a - vy b) (vz a - vz b).
(** Eigen: k * a *)
Definition vscale (k : R) (a : vec) : vec := V (k * vx a) (k * vy a) (k * vz a).
(** Eigen: a / k *)
Definition vdiv (a : vec) (k : R) : vec := V (vx a / k) (vy a / k) (vz a / k).
(** Eigen: -a *)
Definition vneg (a : vec) : vec := V (- vx a) (- vy a) (- vz a).
(** Eigen: a.dot(b) *)
Definition dot (a b : vec) : R := vx a * vx b + vy a * vy b + vz a * vz b.
(** Eigen cross, used in Src/Convert.cpp:200 and Src/InsCore.cpp:63-65 *)
Definition cross (a b : vec) : vec :=
  V (vy a * vz b - vz a * vy b) (vz a * vx b - vx a * vz b) (vx a * vy b - vy a * vx b).
(** Eigen: a.norm() *)
Definition vnorm (a : vec) : R := sqrt (dot a a).

(** Eigen matrix operations *)
Definition eye : mat := M 1 0 0 0 1 0 0 0 1.
(** Eigen: a + b *)
Definition madd (a b : mat) : mat :=
  M (m00 a + m00 b) (m01 a + m01 b) (m02 a + m02 b) (m10 a + m10 b) (m11 a + m11 b) (m12 a + m12 b)
    (m20 a + m20 b) (m21 a + m21 b) (m22 a + m22 b).
(** Eigen: k * a *)
Definition mscale (k : R) (a : mat) : mat :=
  M (k * m00 a) (k * m01 a) (k * m02 a) (k * m10 a) (k * m11 a) (k * m12 a) (k * m20 a) (k * m21 a) (k * m22 a).
(** Eigen: a - b *)
Definition msub (a b : mat) : mat := madd a (mscale (-1) b).
(** Eigen: a * b *)
Definition mmul (a b : mat) : mat :=
  M (m00 a * m00 b + m01 a * m10 b + m02 a * m20 b) (m00 a * m01 b + m01 a * m11 b + m02 a * m21 b)
    (m00 a * m02 b + m01 a * m12 b + m02 a * m22 b)
    (m10 a * m00 b + m11 a * m10 b + m12 a * m20 b) (m10 a * m01 b + m11 a * m11 b + m12 a * m21 b)
    (m10 a * m02 b + m11 a * m12 b + m12 a * m22 b)
    (m20 a * m00 b + m21 a * m10 b + m22 a * m20 b) (m20 a * m01 b + m21 a * m11 b + m22 a * m21 b)
    (m20 a * m02 b + m21 a * m12 b + m22 a * m22 b).
(** Eigen: a * v *)
Definition mvec (a : mat) (v : vec) : vec :=
  V (m00 a * vx v + m01 a * vy v + m02 a * vz v) (m10 a * vx v + m11 a * vy v + m12 a * vz v)
    (m20 a * vx v + m21 a * vy v + m22 a * vz v).
(** Eigen: a.transpose() *)
Definition mtrans (a : mat) : mat :=
  M (m00 a) (m10 a) (m20 a) (m01 a) (m11 a) (m21 a) (m02 a) (m12 a) (m22 a).
(** Eigen: a.determinant() *)
Definition mdet (a : mat) : R :=
  m00 a * (m11 a * m22 a - m12 a * m21 a) - m01 a * (m10 a * m22 a - m12 a * m20 a)
  + m02 a * (m10 a * m21 a - m11 a * m20 a).
(** Eigen: v.asDiagonal() *)
Definition mdiag (v : vec) : mat := M (vx v) 0 0 0 (vy v) 0 0 0 (vz v).

(** Eigen quaternion product (Hamilton), conjugate, squared norm, used in Src/InsCore.cpp:80,109 *)
Definition qmul (a b : quat) : quat :=
  Q (qw a * qw b - qx a * qx b - qy a * qy b - qz a * qz b)
    (qw a * qx b + qx a * qw b + qy a * qz b - qz a * qy b)
    (qw a * qy b + qy a * qw b + qz a * qx b - qx a * qz b)
    (qw a * qz b + qz a * qw b + qx a * qy b - qy a * qx b).
(** Eigen: a.conjugate() *)
Definition qconj (a : quat) : quat := Q (qw a) (- qx a) (- qy a) (- qz a).
(** Eigen: all coefficients negated *)
Definition qneg (a : quat) : quat := Q (- qw a) (- qx a) (- qy a) (- qz a).
(** Eigen: Quaternion::Identity() *)
Definition qone : quat := Q 1 0 0 0.
(** Eigen: a.squaredNorm() *)
Definition qnorm2 (a : quat) : R := qw a * qw a + qx a * qx a + qy a * qy a + qz a * qz a.
(** Eigen Quaternion::normalized: coeffs().normalized(), which returns the argument itself when its
    squared norm is not positive (Eigen 3.3 Dot.h) *)
Definition qnormalized (a : quat) : quat :=
  if Rlt_dec 0 (qnorm2 a)
  then let n := sqrt (qnorm2 a) in Q (qw a / n) (qx a / n) (qy a / n) (qz a / n)
  else a.

(** * numbers with the C outcomes of a division *)
Inductive num := Fin (r : R) | PInf | NInf | NaN.
(** x / y in C for finite x, y: Src/Convert.cpp:111,121 *)
Definition xdiv (x y : R) : num :=
  if Req_EM_T y 0
  then (if Rlt_dec 0 x then PInf else if Rlt_dec x 0 then NInf else NaN)
  else Fin (x / y).
(** atan of the C library *)
Definition xatan (a : num) : num :=
  match a with Fin r => Fin (atan r) | PInf => Fin (PI / 2) | NInf => Fin (- (PI / 2)) | NaN => NaN end.
(** affine function c + k * a with k negative (Src/Convert.cpp:113) or any finite k *)
Definition xaffine (c k : R) (a : num) : num :=
  match a with
  | Fin r => Fin (c + k * r)
  | NaN => NaN
  | PInf => if Rlt_dec 0 k then PInf else if Rlt_dec k 0 then NInf else NaN
  | NInf => if Rlt_dec 0 k then NInf else if Rlt_dec k 0 then PInf else NaN
  end.

(** atan2 of the C library on finite arguments (zeros counted as +0): ISO C F.10.1.4 *)
Definition atan2 (y x : R) : R :=
  if Rlt_dec 0 x then atan (y / x)
  else if Rlt_dec x 0 then (if Rle_dec 0 y then atan (y / x) + PI else atan (y / x) - PI)
  else if Rlt_dec 0 y then PI / 2
  else if Rlt_dec y 0 then - (PI / 2)
  else 0.

(** * basic facts *)
Lemma vec_ext a b : vx a = vx b -> vy a = vy b -> vz a = vz b -> a = b.
Proof. destruct a, b; simpl; intros; subst; reflexivity. Qed.
Lemma quat_ext a b : qw a = qw b -> qx a = qx b -> qy a = qy b -> qz a = qz b -> a = b.
Proof. destruct a, b; simpl; intros; subst; reflexivity. Qed.
Lemma mat_ext a b : m00 a = m00 b -> m01 a = m01 b -> m02 a = m02 b -> m10 a = m10 b -> m11 a = m11 b ->
  m12 a = m12 b -> m20 a = m20 b -> m21 a = m21 b -> m22 a = m22 b -> a = b.
Proof. destruct a, b; simpl; intros; subst; reflexivity. Qed.

Ltac vring := intros; apply vec_ext; simpl; try ring; try field.
Ltac mring := intros; apply mat_ext; simpl; try ring; try field.
Ltac qring := intros; apply quat_ext; simpl; try ring; try field.

Lemma qnorm2_mul a b : qnorm2 (qmul a b) = qnorm2 a * qnorm2 b.
Proof. destruct a, b; unfold qnorm2, qmul; simpl; ring. Qed.
Lemma qnorm2_conj a : qnorm2 (qconj a) = qnorm2 a.
Proof. destruct a; unfold qnorm2, qconj; simpl; ring. Qed.
Lemma qnorm2_neg a : qnorm2 (qneg a) = qnorm2 a.
Proof. destruct a; unfold qnorm2, qneg; simpl; ring. Qed.
Lemma qnorm2_nonneg a : 0 <= qnorm2 a.
Proof. unfold qnorm2. nra. Qed.
Lemma qmul_assoc a b c : qmul a (qmul b c) = qmul (qmul a b) c.
Proof. destruct a, b, c; qring. Qed.
Lemma qmul_one_l a : qmul qone a = a.
Proof. destruct a; qring. Qed.
Lemma qmul_one_r a : qmul a qone = a.
Proof. destruct a; qring. Qed.
Lemma qmul_conj_r a : qmul a (qconj a) = Q (qnorm2 a) 0 0 0.
Proof. destruct a; unfold qnorm2; qring. Qed.
Lemma qmul_conj_l a : qmul (qconj a) a = Q (qnorm2 a) 0 0 0.
Proof. destruct a; unfold qnorm2; qring. Qed.

Lemma qnormalized_unit a : 0 < qnorm2 a -> qnorm2 (qnormalized a) = 1.
Proof.
  intros H. unfold qnormalized. destruct (Rlt_dec 0 (qnorm2 a)); [|lra].
  assert (S := sqrt_sqrt (qnorm2 a) (Rlt_le _ _ H)). assert (P := sqrt_lt_R0 _ H).
  unfold qnorm2 at 1; simpl. set (n := sqrt (qnorm2 a)) in *.
  replace (qw a / n * (qw a / n) + qx a / n * (qx a / n) + qy a / n * (qy a / n) + qz a / n * (qz a / n))
    with (qnorm2 a / (n * n)) by (unfold qnorm2; field; lra).
  rewrite S. field. lra.
Qed.

Lemma qnormalized_id a : qnorm2 a = 1 -> qnormalized a = a.
Proof.
  intros H. unfold qnormalized. destruct (Rlt_dec 0 (qnorm2 a)); [|lra].
  rewrite H, sqrt_1. destruct a; qring; lra.
Qed.

Lemma mmul_assoc a b c : mmul a (mmul b c) = mmul (mmul a b) c.
Proof. destruct a, b, c; mring. Qed.
Lemma mvec_mmul a b v : mvec (mmul a b) v = mvec a (mvec b v).
Proof. destruct a, b, v; vring. Qed.
Lemma mvec_eye v : mvec eye v = v.
Proof. destruct v; vring. Qed.
Lemma mmul_eye_r a : mmul a eye = a. Proof. destruct a; mring. Qed.
Lemma mmul_eye_l a : mmul eye a = a. Proof. destruct a; mring. Qed.
Lemma mtrans_mmul a b : mtrans (mmul a b) = mmul (mtrans b) (mtrans a).
Proof. destruct a, b; mring. Qed.
Lemma mtrans_trans a : mtrans (mtrans a) = a. Proof. destruct a; mring. Qed.
Lemma mdet_mmul a b : mdet (mmul a b) = mdet a * mdet b.
Proof. destruct a, b; unfold mdet; simpl; ring. Qed.
Lemma mvec_vadd a u v : mvec a (vadd u v) = vadd (mvec a u) (mvec a v).
Proof. destruct a, u, v; vring. Qed.
Lemma mvec_vscale a k v : mvec a (vscale k v) = vscale k (mvec a v).
Proof. destruct a, v; vring. Qed.

(** * atan2 *)
Lemma atan2_scale r y x : 0 < r -> atan2 (r * y) (r * x) = atan2 y x.
Proof.
  intros Hr. unfold atan2.
  assert (Px : forall u, 0 < r * u <-> 0 < u) by (intros; split; intros; nra).
  assert (Nx : forall u, r * u < 0 <-> u < 0) by (intros; split; intros; nra).
  assert (L : forall u, 0 <= r * u <-> 0 <= u) by (intros; split; intros; nra).
  assert (D : x <> 0 -> r * y / (r * x) = y / x) by (intros; field; lra).
  destruct (Rlt_dec 0 (r * x)) as [a|a]; destruct (Rlt_dec 0 x) as [b|b];
    try (exfalso; specialize (Px x); tauto).
  - rewrite D by lra. reflexivity.
  - destruct (Rlt_dec (r * x) 0) as [c|c]; destruct (Rlt_dec x 0) as [d|d];
      try (exfalso; specialize (Nx x); tauto).
    + rewrite D by lra.
      destruct (Rle_dec 0 (r * y)) as [e|e]; destruct (Rle_dec 0 y) as [f|f]; try reflexivity;
        exfalso; specialize (L y); tauto.
    + destruct (Rlt_dec 0 (r * y)) as [e|e]; destruct (Rlt_dec 0 y) as [f|f]; try reflexivity;
        try (exfalso; specialize (Px y); tauto).
      destruct (Rlt_dec (r * y) 0) as [g|g]; destruct (Rlt_dec y 0) as [h|h]; try reflexivity;
        try (exfalso; specialize (Nx y); tauto).
Qed.

Lemma tan_def t : tan t = sin t / cos t.
Proof. reflexivity. Qed.

Lemma atan2_sincos t : - PI < t <= PI -> atan2 (sin t) (cos t) = t.
Proof.
  intros [L U]. assert (P := PI_RGT_0). unfold atan2.
  destruct (Rlt_dec 0 (cos t)) as [a|a].
  - assert (- (PI / 2) < t < PI / 2).
    { split.
      - destruct (Rlt_dec (- (PI / 2)) t); auto. exfalso.
        assert (cos t <= 0); [|lra]. rewrite <- cos_neg. apply cos_le_0; lra.
      - destruct (Rlt_dec t (PI / 2)); auto. exfalso.
        assert (cos t <= 0); [|lra]. apply cos_le_0; lra. }
    rewrite <- tan_def. apply atan_tan. lra.
  - destruct (Rlt_dec (cos t) 0) as [b|b].
    + destruct (Rle_dec 0 (sin t)) as [c|c].
      * assert (PI / 2 < t <= PI).
        { split; auto. destruct (Rlt_dec (PI / 2) t); auto. exfalso.
          destruct (Rle_dec (- (PI / 2)) t).
          - assert (0 <= cos t); [|lra]. apply cos_ge_0; lra.
          - assert (sin t < 0); [|lra]. apply sin_lt_0_var; lra. }
        replace (sin t / cos t) with (tan (t - PI)).
        { rewrite atan_tan by lra. lra. }
        unfold tan. replace (t - PI) with (- (PI - t)) by lra.
        rewrite sin_neg, cos_neg. rewrite sin_PI_x, Rtrigo_facts.cos_pi_minus. field. lra.
      * assert (t < - (PI / 2)).
        { destruct (Rlt_dec t (- (PI / 2))); auto. exfalso.
          destruct (Rle_dec t (PI / 2)).
          - assert (0 <= cos t); [|lra]. apply cos_ge_0; lra.
          - assert (0 <= sin t); [|lra]. apply sin_ge_0; lra. }
        replace (sin t / cos t) with (tan (t + PI)).
        { rewrite atan_tan by lra. lra. }
        unfold tan. rewrite neg_sin, neg_cos. field. lra.
    + assert (Z : cos t = 0) by lra.
      assert (t = PI / 2 \/ t = - (PI / 2)).
      { destruct (Rle_dec 0 t).
        - left. apply Rle_antisym.
          + destruct (Rle_dec t (PI / 2)); auto. assert (cos t < 0); [|lra]. apply cos_lt_0; lra.
          + destruct (Rle_dec (PI / 2) t); auto. assert (0 < cos t); [|lra]. apply cos_gt_0; lra.
        - right. rewrite <- cos_neg in Z. apply Rle_antisym.
          + destruct (Rle_dec t (- (PI / 2))); auto. assert (0 < cos (- t)); [|lra]. apply cos_gt_0; lra.
          + destruct (Rle_dec (- (PI / 2)) t); auto. assert (cos (- t) < 0); [|lra]. apply cos_lt_0; lra. }
      destruct H; subst t.
      * rewrite sin_PI2. destruct (Rlt_dec 0 1); [reflexivity|lra].
      * rewrite sin_neg, sin_PI2. destruct (Rlt_dec 0 (Ropp 1)); [lra|]. destruct (Rlt_dec (Ropp 1) 0); [reflexivity|lra].
Qed.

Lemma atan2_polar r t : 0 < r -> - PI < t <= PI -> atan2 (r * sin t) (r * cos t) = t.
Proof. intros. rewrite atan2_scale by assumption. apply atan2_sincos; assumption. Qed.

Lemma atan2_range y x : - PI < atan2 y x <= PI.
Proof.
  assert (P := PI_RGT_0). unfold atan2.
  assert (B := atan_bound (y / x)).
  destruct (Rlt_dec 0 x); [lra|]. destruct (Rlt_dec x 0) as [h|h].
  - assert (S : 0 <= y -> atan (y / x) <= 0).
    { intros. destruct (Req_dec y 0) as [->|]. { unfold Rdiv. rewrite Rmult_0_l, atan_0. lra. }
      left. rewrite <- atan_0. apply atan_increasing. unfold Rdiv.
      assert (/ x < 0) by (apply Rinv_lt_0_compat; lra). nra. }
    assert (S2 : y < 0 -> 0 < atan (y / x)).
    { intros. rewrite <- atan_0. apply atan_increasing. unfold Rdiv.
      assert (/ x < 0) by (apply Rinv_lt_0_compat; lra). nra. }
    destruct (Rle_dec 0 y).
    + specialize (S r). lra.
    + assert (y < 0) by lra. specialize (S2 H). lra.
  - destruct (Rlt_dec 0 y); [lra|]. destruct (Rlt_dec y 0); lra.
Qed.
