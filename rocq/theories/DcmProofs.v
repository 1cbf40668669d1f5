From Coq Require Import Reals List Lra Psatz.
From Verif Require Import RealMath DcmModel.
Import ListNotations.
Open Scope R_scope.

(** * specification *)
(** the weighted sum of body velocities: the wheel speed is the weight, or the first component without one *)
Definition weighted (o : observation) : vec :=
  match o with NoOdo vb => vscale (vx vb) vb | Odo vb vf => vscale vf vb end.
Definition resultant (l : list observation) : vec := fold_left vadd (map weighted l) vzero.
Definition speeds2 (l : list observation) : R :=
  fold_left Rplus (map (fun o => match o with NoOdo _ => 0 | Odo _ vf => vf * vf end) l) 0.
(** every velocity is a wheel speed times [k] along the direction [u] (straight driving, no slip) *)
Definition straight (k : R) (u : vec) (o : observation) : Prop :=
  match o with NoOdo _ => False | Odo vb vf => vb = vscale (k * vf) u end.
Definition forward : vec := V 1 0 0.

(** * proofs *)
Lemma vec_eq a b : vx a = vx b -> vy a = vy b -> vz a = vz b -> a = b.
Proof. destruct a, b; simpl; intros; subst; reflexivity. Qed.

Lemma updates_w l e : updates l e ->
  e_w e = add_col0 (M 0 0 0 0 0 0 0 0 0) (resultant l) /\ e_sum_vf e = speeds2 l.
Proof.
  induction 1 as [|l e o e' _ [W S] U].
  - split; [|reflexivity]. unfold add_col0, resultant; simpl. f_equal; ring.
  - unfold resultant, speeds2 in *. rewrite !map_app, !fold_left_app. simpl.
    destruct o as [vb|vb vf]; simpl in U; destruct U as (u & s & v & _ & ->); simpl;
      rewrite W, S; split; try ring; unfold add_col0, vadd; simpl; f_equal; ring.
Qed.

Lemma update_svd l e : updates l e -> l <> [] -> exists u s v, is_svd (e_w e) u s v /\
  e_dcm e = mmul v (mtrans u) /\ e_scale e = vx s / (e_sum_vf e + / 10 ^ 30).
Proof.
  destruct 1 as [|l e o e' H U]; [congruence|]. intros _.
  destruct o as [vb|vb vf]; simpl in U; destruct U as (u & s & v & A & ->); simpl; exists u, s, v; auto.
Qed.

Lemma mmul_assoc a b c : mmul (mmul a b) c = mmul a (mmul b c).
Proof. destruct a, b, c; unfold mmul; simpl; f_equal; ring. Qed.
Lemma mmul_eye_l a : mmul eye a = a. Proof. destruct a; unfold mmul, eye; simpl; f_equal; ring. Qed.
Lemma mmul_eye_r a : mmul a eye = a. Proof. destruct a; unfold mmul, eye; simpl; f_equal; ring. Qed.
Lemma mtrans_mmul a b : mtrans (mmul a b) = mmul (mtrans b) (mtrans a).
Proof. destruct a, b; unfold mmul, mtrans; simpl; f_equal; ring. Qed.
Lemma mtrans_inv a : mtrans (mtrans a) = a. Proof. destruct a; reflexivity. Qed.

Theorem dcm_orthogonal l e : updates l e ->
  mmul (e_dcm e) (mtrans (e_dcm e)) = eye /\ mmul (mtrans (e_dcm e)) (e_dcm e) = eye.
Proof.
  intros H. destruct l as [|o l].
  - inversion H; subst; [|destruct l; discriminate]. simpl. split; unfold mmul, mtrans, eye; simpl; f_equal; ring.
  - destruct (update_svd _ _ H) as (u & s & v & (U1 & U2 & V1 & V2 & _) & E & _); [discriminate|].
    rewrite E, mtrans_mmul, mtrans_inv. split.
    + rewrite mmul_assoc, <- (mmul_assoc (mtrans u)), U1, mmul_eye_l. exact V2.
    + rewrite mmul_assoc, <- (mmul_assoc (mtrans v)), V1, mmul_eye_l. exact U2.
Qed.

Lemma eye_entries a : a = eye -> m00 a = 1 /\ m01 a = 0 /\ m02 a = 0 /\ m10 a = 0 /\ m11 a = 1 /\ m12 a = 0 /\ m20 a = 0 /\ m21 a = 0 /\ m22 a = 1.
Proof. intros ->; simpl; repeat split; reflexivity. Qed.

(** the decomposition of a matrix with a single column *)
Lemma svd_column x u s v : is_svd (add_col0 (M 0 0 0 0 0 0 0 0 0) x) u s v ->
  mvec (mmul v (mtrans u)) x = vscale (vx s) forward /\ (vx s) * (vx s) = dot x x.
Proof.
  intros (U1 & U2 & V1 & V2 & S1 & S2 & S3 & W).
  (* Sigma = U^T W V *)
  assert (E : mmul (mmul (mtrans u) (add_col0 (M 0 0 0 0 0 0 0 0 0) x)) v = mdiag s).
  { rewrite W. rewrite !mmul_assoc, V1, mmul_eye_r, <- mmul_assoc, U1, mmul_eye_l. reflexivity. }
  apply eye_entries in U1. apply eye_entries in U2. apply eye_entries in V1. apply eye_entries in V2.
  destruct u as [u00 u01 u02 u10 u11 u12 u20 u21 u22], v as [v00 v01 v02 v10 v11 v12 v20 v21 v22], x as [x y z], s as [s1 s2 s3].
  unfold mmul, mtrans, add_col0, mdiag, eye, mvec, vscale, dot, forward in *. simpl in *. clear W.
  injection E as E00 E01 E02 E10 E11 E12 E20 E21 E22.
  set (a := u00 * x + u10 * y + u20 * z) in *.
  set (b := u01 * x + u11 * y + u21 * z) in *.
  set (c := u02 * x + u12 * y + u22 * z) in *.
  assert (A0 : a * v00 = s1) by (rewrite <- E00; unfold a; ring).
  assert (A1 : a * v01 = 0) by (rewrite <- E01; unfold a; ring).
  assert (A2 : a * v02 = 0) by (rewrite <- E02; unfold a; ring).
  assert (B0 : b * v00 = 0) by (rewrite <- E10; unfold b; ring).
  assert (B1 : b * v01 = s2) by (rewrite <- E11; unfold b; ring).
  assert (B2 : b * v02 = 0) by (rewrite <- E12; unfold b; ring).
  assert (C0 : c * v00 = 0) by (rewrite <- E20; unfold c; ring).
  assert (C1 : c * v01 = 0) by (rewrite <- E21; unfold c; ring).
  assert (C2 : c * v02 = s3) by (rewrite <- E22; unfold c; ring).
  assert (N : a * a + b * b + c * c = x * x + y * y + z * z).
  { replace (a * a + b * b + c * c) with
      (x * x * (u00 * u00 + u01 * u01 + u02 * u02) + y * y * (u10 * u10 + u11 * u11 + u12 * u12) + z * z * (u20 * u20 + u21 * u21 + u22 * u22)
       + 2 * x * y * (u00 * u10 + u01 * u11 + u02 * u12) + 2 * x * z * (u00 * u20 + u01 * u21 + u02 * u22) + 2 * y * z * (u10 * u20 + u11 * u21 + u12 * u22))
      by (unfold a, b, c; ring).
    destruct U2 as (Q0 & Q1 & Q2 & Q3 & Q4 & Q5 & Q6 & Q7 & Q8). rewrite Q0, Q4, Q8, Q1, Q2, Q5. ring. }
  destruct V2 as (P0 & P1 & P2 & P3 & P4 & P5 & P6 & P7 & P8).
  (* s1 = 0: everything vanishes *)
  destruct (Req_dec s1 0) as [Z|Z].
  - assert (Z2 : s2 = 0) by lra. assert (Z3 : s3 = 0) by lra. rewrite Z in *. rewrite Z2 in *. rewrite Z3 in *.
    assert (a = 0 /\ b = 0 /\ c = 0) as (Ha & Hb & Hc).
    { repeat split.
      - assert (a * (v00 * v00 + v01 * v01 + v02 * v02) = 0) as X by (replace (a * (v00 * v00 + v01 * v01 + v02 * v02)) with ((a * v00) * v00 + (a * v01) * v01 + (a * v02) * v02) by ring; rewrite A0, A1, A2; ring).
        rewrite P0, Rmult_1_r in X. exact X.
      - assert (b * (v00 * v00 + v01 * v01 + v02 * v02) = 0) as X by (replace (b * (v00 * v00 + v01 * v01 + v02 * v02)) with ((b * v00) * v00 + (b * v01) * v01 + (b * v02) * v02) by ring; rewrite B0, B1, B2; ring).
        rewrite P0, Rmult_1_r in X. exact X.
      - assert (c * (v00 * v00 + v01 * v01 + v02 * v02) = 0) as X by (replace (c * (v00 * v00 + v01 * v01 + v02 * v02)) with ((c * v00) * v00 + (c * v01) * v01 + (c * v02) * v02) by ring; rewrite C0, C1, C2; ring).
        rewrite P0, Rmult_1_r in X. exact X. }
    split.
    + apply vec_eq; simpl.
      * replace (_ + _ + _) with (v00 * a + v01 * b + v02 * c) by (unfold a, b, c; ring). rewrite Ha, Hb, Hc; ring.
      * replace (_ + _ + _) with (v10 * a + v11 * b + v12 * c) by (unfold a, b, c; ring). rewrite Ha, Hb, Hc; ring.
      * replace (_ + _ + _) with (v20 * a + v21 * b + v22 * c) by (unfold a, b, c; ring). rewrite Ha, Hb, Hc; ring.
    + rewrite <- N, Ha, Hb, Hc. ring.
  - assert (Ha : a <> 0) by (intros X; apply Z; rewrite <- A0, X; ring).
    assert (Hv : v00 <> 0) by (intros X; apply Z; rewrite <- A0, X; ring).
    assert (v01 = 0) by (apply Rmult_integral in A1; tauto). assert (v02 = 0) by (apply Rmult_integral in A2; tauto).
    assert (Hb : b = 0) by (apply Rmult_integral in B0; tauto). assert (Hc : c = 0) by (apply Rmult_integral in C0; tauto).
    subst v01 v02.
    assert (Q : v00 * v00 = 1) by lra.
    assert (v10 = 0). { apply (Rmult_eq_reg_l v00); [|assumption]. lra. }
    assert (v20 = 0). { apply (Rmult_eq_reg_l v00); [|assumption]. lra. }
    subst v10 v20. split.
    + apply vec_eq; simpl.
      * replace (_ + _ + _) with (v00 * a + 0 * b + 0 * c) by (unfold a, b, c; ring). rewrite <- A0; ring.
      * replace (_ + _ + _) with (0 * a + v11 * b + v12 * c) by (unfold a, b, c; ring). rewrite Hb, Hc; ring.
      * replace (_ + _ + _) with (0 * a + v21 * b + v22 * c) by (unfold a, b, c; ring). rewrite Hb, Hc; ring.
    + rewrite <- N, Hb, Hc, <- A0. replace (a * v00 * (a * v00)) with (a * a * (v00 * v00)) by ring. rewrite Q. ring.
Qed.

Lemma sing_norm a x : a >= 0 -> a * a = dot x x -> a = vnorm x.
Proof. intros A E. unfold vnorm. rewrite <- E, sqrt_square; [reflexivity|lra]. Qed.

Lemma svd_nonneg w u s v : is_svd w u s v -> vx s >= 0.
Proof. intros (_ & _ & _ & _ & A & B & C & _). lra. Qed.

Theorem dcm_forward l e : updates l e -> l <> [] ->
  mvec (e_dcm e) (resultant l) = vscale (vnorm (resultant l)) forward /\
  e_scale e = vnorm (resultant l) / (speeds2 l + / 10 ^ 30).
Proof.
  intros H N. destruct (updates_w _ _ H) as [W S].
  destruct (update_svd _ _ H N) as (u & s & v & D & E & Sc). rewrite W in D.
  destruct (svd_column _ _ _ _ D) as [A B].
  apply sing_norm in B; [|eapply svd_nonneg; eassumption].
  rewrite E, Sc, S, <- B. auto.
Qed.

Lemma fold_vadd l : forall a, fold_left vadd l a = vadd a (fold_left vadd l vzero).
Proof.
  induction l as [|x l IH]; intros a; simpl.
  - apply vec_eq; simpl; ring.
  - rewrite (IH (vadd a x)), (IH (vadd vzero x)). apply vec_eq; simpl; ring.
Qed.
Lemma fold_plus l : forall a, fold_left Rplus l a = a + fold_left Rplus l 0.
Proof. induction l as [|x l IH]; intros a; simpl; [ring|]. rewrite (IH (a + x)), (IH (0 + x)). ring. Qed.

Lemma straight_sum k u l : Forall (straight k u) l -> resultant l = vscale (k * speeds2 l) u.
Proof.
  unfold resultant, speeds2. induction 1 as [|o l Ho _ IH]; simpl.
  - apply vec_eq; simpl; ring.
  - rewrite fold_vadd, IH, (fold_plus _ (0 + _)). destruct o as [|vb vf]; [destruct Ho|]. simpl in Ho. subst vb.
    apply vec_eq; simpl; ring.
Qed.

Lemma speeds2_nonneg l : 0 <= speeds2 l.
Proof.
  unfold speeds2. induction l as [|o l IH]; simpl; [lra|]. rewrite fold_plus.
  destruct o; nra.
Qed.

Lemma vscale_norm k u : 0 <= k -> dot u u = 1 -> vnorm (vscale k u) = k.
Proof.
  intros K U. unfold vnorm. replace (dot (vscale k u) (vscale k u)) with (k * k * dot u u) by (unfold dot, vscale; simpl; ring).
  rewrite U, Rmult_1_r. apply sqrt_square, K.
Qed.

Theorem dcm_straight k u l e : updates l e -> Forall (straight k u) l -> dot u u = 1 -> 0 < k -> 0 < speeds2 l ->
  mvec (e_dcm e) u = forward /\
  e_scale e = k * speeds2 l / (speeds2 l + / 10 ^ 30) /\ Rabs (e_scale e - k) <= k / (10 ^ 30 * speeds2 l).
Proof.
  intros H F U K P.
  assert (N : l <> []) by (intros ->; unfold speeds2 in P; simpl in P; lra).
  destruct (dcm_forward _ _ H N) as [A B]. rewrite (straight_sum _ _ _ F) in A, B.
  assert (KP : 0 < k * speeds2 l) by (apply Rmult_lt_0_compat; assumption).
  rewrite vscale_norm in A, B by (lra || assumption).
  assert (EQ : e_scale e = k * speeds2 l / (speeds2 l + / 10 ^ 30)) by exact B.
  split; [|split; [exact EQ|]].
  - set (p := k * speeds2 l) in *. apply vec_eq.
    + apply (f_equal vx) in A. simpl in *. apply (Rmult_eq_reg_l p); [|lra]. lra.
    + apply (f_equal vy) in A. simpl in *. apply (Rmult_eq_reg_l p); [|lra]. lra.
    + apply (f_equal vz) in A. simpl in *. apply (Rmult_eq_reg_l p); [|lra]. lra.
  - rewrite EQ. assert (T : 0 < 10 ^ 30) by (apply pow_lt; lra). set (t := 10 ^ 30) in *. clearbody t.
    assert (It : 0 < / t) by (apply Rinv_0_lt_compat; exact T).
    replace (k * speeds2 l / (speeds2 l + / t) - k) with (- (k / (t * speeds2 l + 1))) by (field; split; nra).
    rewrite Rabs_Ropp, Rabs_right.
    + unfold Rdiv. apply Rmult_le_compat_l; [lra|]. apply Rinv_le_contravar; nra.
    + apply Rle_ge. unfold Rdiv. apply Rmult_le_pos; [lra|]. left. apply Rinv_0_lt_compat. nra.
Qed.

(** without a wheel speed the factor is the sum times 10^30 *)
Theorem scale_without_odo l e : updates l e -> l <> [] -> speeds2 l = 0 -> e_scale e = vnorm (resultant l) * 10 ^ 30.
Proof.
  intros H N S. destruct (dcm_forward _ _ H N) as [_ ->]. rewrite S, Rplus_0_l. unfold Rdiv. rewrite Rinv_inv. reflexivity.
Qed.

(** driving backwards (or a unit that points to the rear): a reflection is possible *)
Definition backwards : list observation := [Odo (V (-1) 0 0) 1].
Definition mirror : mat := M (-1) 0 0 0 1 0 0 0 1.
Theorem reflection : exists e, updates backwards e /\ mdet (e_dcm e) = -1.
Proof.
  eexists. split.
  - apply (U_one [] new_estimator (Odo (V (-1) 0 0) 1)); [apply U_none|].
    exists mirror, (V 1 0 0), eye. split; [|reflexivity].
    unfold is_svd, new_estimator, add_col0, mirror, eye, mmul, mtrans, mdiag, vscale; simpl.
    repeat split; try lra; f_equal; ring.
  - unfold mdet, mmul, mtrans, mirror, eye; simpl. ring.
Qed.

(** the same observations admit another answer: the turn about the forward axis is not determined *)
Definition ahead : list observation := [Odo (V 1 0 0) 1].
Definition half_turn : mat := M 1 0 0 0 (-1) 0 0 0 (-1).
Lemma ahead_step u : mmul u (mtrans u) = eye -> mmul (mtrans u) u = eye -> m00 u = 1 -> m10 u = 0 -> m20 u = 0 ->
  m01 u = 0 -> m02 u = 0 ->
  exists e, updates ahead e /\ e_dcm e = mtrans u.
Proof.
  intros A B E0 E1 E2 E3 E4. eexists. split.
  - apply (U_one [] new_estimator (Odo (V 1 0 0) 1)); [apply U_none|].
    exists u, (V 1 0 0), eye. split; [|reflexivity].
    unfold is_svd. split; [exact B|]. split; [exact A|].
    split; [unfold mmul, mtrans, eye; simpl; f_equal; ring|].
    split; [unfold mmul, mtrans, eye; simpl; f_equal; ring|].
    split; [simpl; lra|]. split; [simpl; lra|]. split; [simpl; lra|].
    destruct u; simpl in *. subst. unfold new_estimator, add_col0, eye, mmul, mtrans, mdiag, vscale; simpl. f_equal; ring.
  - simpl. apply mmul_eye_l.
Qed.
Theorem roll_open : (exists e, updates ahead e /\ e_dcm e = eye) /\ (exists e, updates ahead e /\ e_dcm e = half_turn).
Proof.
  split.
  - destruct (ahead_step eye) as (e & U & D); try reflexivity; try (unfold mmul, mtrans, eye; simpl; f_equal; ring).
    exists e. split; [exact U|]. rewrite D. reflexivity.
  - destruct (ahead_step half_turn) as (e & U & D); try reflexivity; try (unfold mmul, mtrans, half_turn, eye; simpl; f_equal; ring).
    exists e. split; [exact U|]. rewrite D. reflexivity.
Qed.

(** The documentation says: matrix from the vehicle frame to the body frame.  It is the other direction. *)
Definition turned : vec := V 0 1 0.
Theorem direction k l e : updates l e -> Forall (straight k turned) l -> 0 < k -> 0 < speeds2 l ->
  mvec (e_dcm e) turned = forward /\ mvec (mtrans (e_dcm e)) forward = turned.
Proof.
  intros H F K P. assert (U : dot turned turned = 1) by (unfold dot, turned; simpl; ring).
  destruct (dcm_straight _ _ _ _ H F U K P) as [A _]. split; [exact A|].
  destruct (dcm_orthogonal _ _ H) as [_ O]. rewrite <- A.
  replace (mvec (mtrans (e_dcm e)) (mvec (e_dcm e) turned)) with (mvec (mmul (mtrans (e_dcm e)) (e_dcm e)) turned)
    by (destruct (e_dcm e); unfold mvec, mmul, mtrans, turned; simpl; f_equal; ring).
  rewrite O. unfold mvec, eye, turned; simpl. f_equal; ring.
Qed.
