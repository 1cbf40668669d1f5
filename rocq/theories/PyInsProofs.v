(** Tools/InsCore.py against Src/Earth.cpp, Src/Convert.cpp, Src/InsCore.cpp; proofs of C153 to C156. *)
From Coq Require Import Reals List Arith Lra Lia Psatz.
From Verif Require Import RealMath EarthModel ConvertModel ConvertSpec ConvertProofs EarthProofs MathWrap SmoothModel
  InsModel InsSpec InsProofs InsRest PyInsModel.
Import ListNotations.
Open Scope R_scope.

(** * the same conversions *)
Lemma y_RM_same phi : y_RM phi = RM phi. Proof. reflexivity. Qed.
Lemma y_RN_same phi : y_RN phi = RN phi. Proof. reflexivity. Qed.
Lemma y_g_same lat h : y_g lat h = gravity lat h.
Proof. unfold y_g, gravity. change y_g0 with g0. cbv zeta. ring. Qed.
Lemma y_ie_same lat : y_ie lat = omega_ie_n lat. Proof. reflexivity. Qed.
Lemma y_en_same vn ve vd h lat lon : y_en vn ve h lat = wen_opt (V vn ve vd) (V lat lon h).
Proof.
  unfold y_en, wen_opt, rates_defined. cbv zeta. cbn [vx vz]. change (y_RN lat) with (RN lat). change (y_RM lat) with (RM lat).
  destruct (Req_EM_T (cos lat) 0); [reflexivity|]. destruct (Req_EM_T (RN lat + h) 0); [reflexivity|].
  destruct (Req_EM_T (RM lat + h) 0); reflexivity.
Qed.
Lemma y_mul_same p q : y_mul p q = qmul p q.
Proof. unfold y_mul, qmul. apply quat_ext; simpl; ring. Qed.
Lemma y_conj_same q : y_conj q = qconj q. Proof. reflexivity. Qed.
Lemma y_abs_same q : y_abs q = sqrt (qnorm2 q).
Proof. unfold y_abs, qnorm2. f_equal. ring. Qed.
Lemma y_normalize_same q : 0 < qnorm2 q -> y_normalize q = Some (qnormalized q).
Proof.
  intros H. unfold y_normalize, qnormalized. rewrite y_abs_same. assert (P := sqrt_lt_R0 _ H).
  destruct (Req_EM_T (sqrt (qnorm2 q)) 0); [lra|]. destruct (Rlt_dec 0 (qnorm2 q)); [|lra]. reflexivity.
Qed.
Lemma y_rv_same v : y_rv_to_quaternion v = rv_to_quaternion v.
Proof.
  unfold y_rv_to_quaternion, rv_to_quaternion. cbv zeta.
  replace (vx v ^ 2 + vy v ^ 2 + vz v ^ 2) with (vx v * vx v + vy v * vy v + vz v * vz v) by ring.
  replace (PI ^ 2) with (PI * PI) by ring.
  destruct (Rlt_dec (vx v * vx v + vy v * vy v + vz v * vz v) (PI * PI)).
  - apply quat_ext; cbn [qw qx qy qz]; field.
  - cbn [qw]. destruct (Rlt_dec (cos (sqrt (vx v * vx v + vy v * vy v + vz v * vz v) / 2)) 0); reflexivity.
Qed.
Lemma y_rv_dcm_same v : y_rv_to_dcm v = rv_to_DCM v.
Proof.
  unfold y_rv_to_dcm, rv_to_DCM. cbv zeta. change (y_skew v) with (skew v).
  set (n2 := vx v * vx v + vy v * vy v + vz v * vz v). assert (N : 0 <= n2) by (unfold n2; nra).
  destruct (Req_EM_T n2 0) as [e|e].
  - rewrite e, sqrt_0. destruct (Req_EM_T 0 0); [reflexivity|lra].
  - assert (0 < sqrt n2) by (apply sqrt_lt_R0; lra). destruct (Req_EM_T (sqrt n2) 0); [lra|].
    rewrite sqrt_sqrt by exact N. f_equal. f_equal.
    generalize ((1 - cos (sqrt n2)) / n2); intros k. destruct (skew v). apply mat_ext; simpl; ring.
Qed.
Lemma y_dcm_same q : y_quaternion_to_dcm q = madd (quaternion_to_dcm q) (mscale (qnorm2 q - 1) eye).
Proof. destruct q. unfold y_quaternion_to_dcm, quaternion_to_dcm, qnorm2. apply mat_ext; simpl; ring. Qed.
Lemma y_dcm_unit q : qnorm2 q = 1 -> y_quaternion_to_dcm q = quaternion_to_dcm q.
Proof.
  intros H. rewrite y_dcm_same, H. destruct (quaternion_to_dcm q). apply mat_ext; simpl; ring.
Qed.
Lemma y_dcm_scaled k q : y_quaternion_to_dcm (Q (k * qw q) (k * qx q) (k * qy q) (k * qz q)) = mscale (k * k) (y_quaternion_to_dcm q).
Proof. destruct q. unfold y_quaternion_to_dcm. apply mat_ext; simpl; ring. Qed.
Lemma y_dcm_rotation q : 0 < qnorm2 q -> exists c, rotation c /\ y_quaternion_to_dcm q = mscale (qnorm2 q) c.
Proof.
  intros H. set (k := sqrt (qnorm2 q)). assert (K : 0 < k) by (apply sqrt_lt_R0; exact H).
  assert (KK : k * k = qnorm2 q) by (apply sqrt_sqrt; lra).
  set (u := Q (qw q / k) (qx q / k) (qy q / k) (qz q / k)).
  assert (U : qnorm2 u = 1).
  { unfold u. transitivity (qnorm2 q / (k * k)); [unfold qnorm2; simpl; field; lra|]. rewrite KK. field. lra. }
  exists (y_quaternion_to_dcm u). split.
  - rewrite y_dcm_unit by exact U. apply dcm_rotation, U.
  - rewrite <- KK, <- y_dcm_scaled. f_equal. unfold u. destruct q. apply quat_ext; simpl; field; lra.
Qed.
Lemma y_euler_same c : y_dcm_to_euler c = dcm_to_euler c. Proof. reflexivity. Qed.
Lemma y_euler_quat_same e : y_euler_to_quaternion e = euler_to_quaternion e. Proof. reflexivity. Qed.
Lemma y_euler_dcm_same r p h : y_euler_to_dcm r p h = euler_to_dcm (V r p h). Proof. reflexivity. Qed.
Lemma y_cne_same lat lon : y_lla_to_cne lat lon = lla_to_cne lat lon. Proof. reflexivity. Qed.
Lemma y_qne_same lat lon : y_lla_to_qne lat lon = lla_to_qne lat lon.
Proof.
  unfold y_lla_to_qne, lla_to_qne. cbv zeta. replace (- (25 / 100) * PI - 5 / 10 * lat) with (- (1 / 4) * PI - 1 / 2 * lat) by field.
  replace (5 / 10 * lon) with (1 / 2 * lon) by field. reflexivity.
Qed.
Lemma y_lla_same q : y_qne_to_lla q = lla_opt q.
Proof.
  unfold y_qne_to_lla, lla_opt, qne_to_lla. cbn [latitude longitude].
  destruct (xdiv (qy q) (qw q)) eqn:E; cbn [xatan xaffine]; try reflexivity; f_equal; f_equal; lra.
Qed.
Lemma y_ecef_same p : y_lla_to_ecef p = lla_to_xyz p. Proof. reflexivity. Qed.
Lemma y_gyro_same a b : y_gyro_to_rv a b = gyro_to_rv a b. Proof. reflexivity. Qed.

(** * the attitude quaternion of the Python step *)
Lemma rv_norm_le v : qnorm2 (rv_to_quaternion v) <= 1.
Proof.
  destruct (Rlt_dec (vnorm v) PI) as [h|h]; [apply (rv_series_norm v h)|].
  destruct (rv_closed v) as [[E|E] _]; [lra| |]; rewrite E, ?qnorm2_neg, exact_unit; lra.
Qed.
Lemma rv_norm_lt v : v <> vzero -> vnorm v < PI -> qnorm2 (rv_to_quaternion v) < 1.
Proof.
  intros Hv H. assert (P4 := PI_4). assert (PP := PI_RGT_0). assert (L := proj1 (vnorm_lt_iff v) H).
  assert (D0 : 0 < dot v v).
  { destruct v as [x y z]. unfold dot; simpl. destruct (Rlt_dec 0 (x * x + y * y + z * z)); [assumption|].
    exfalso. apply Hv. apply vec_ext; simpl; nra. }
  assert (Pi := PI_sq_lt_10).
  unfold rv_to_quaternion. cbv zeta. fold (dot v v). destruct (Rlt_dec (dot v v) (PI * PI)); [|lra].
  set (m := dot v v / 4). assert (M1 : 0 < m < 5 / 2) by (unfold m; lra). assert (D : dot v v = 4 * m) by (unfold m; field).
  assert (E : qnorm2 (Q (1 - dot v v * (1 / 4) / 2 * (1 - dot v v * (1 / 4) / 12 * (1 - dot v v * (1 / 4) / 30)))
     (1 / 2 * (1 - dot v v * (1 / 4) / 6 * (1 - dot v v * (1 / 4) / 20 * (1 - dot v v * (1 / 4) / 42))) * vx v)
     (1 / 2 * (1 - dot v v * (1 / 4) / 6 * (1 - dot v v * (1 / 4) / 20 * (1 - dot v v * (1 / 4) / 42))) * vy v)
     (1 / 2 * (1 - dot v v * (1 / 4) / 6 * (1 - dot v v * (1 / 4) / 20 * (1 - dot v v * (1 / 4) / 42))) * vz v))
     = 1 - m ^ 4 * (1 / 20160 - m / 50400 + m ^ 2 / 725760 - m ^ 3 / 25401600)).
  { rewrite D. unfold qnorm2; simpl.
    transitivity ((1 - m / 2 * (1 - m / 12 * (1 - m / 30))) ^ 2 + (1 - m / 6 * (1 - m / 20 * (1 - m / 42))) ^ 2 * (dot v v / 4)).
    - unfold dot. field.
    - rewrite D. field. }
  rewrite E. assert (0 < m ^ 4) by (apply pow_lt; lra).
  assert (0 <= m ^ 2 * (1 / 725760 - m / 25401600)) by (apply Rmult_le_pos; [apply pow_le|]; lra).
  assert (0 < 1 / 20160 - m / 50400 + m ^ 2 / 725760 - m ^ 3 / 25401600) by lra. nra.
Qed.
(** a bound that holds for every turn *)
Definition series_loss (a : R) : R := (a / 2) ^ 8 / 20160.
Lemma rv_norm_ge v a : vnorm v <= a -> 1 - series_loss a <= qnorm2 (rv_to_quaternion v).
Proof.
  intros H. assert (N := vnorm_nonneg v).
  destruct (Rlt_dec (vnorm v) PI) as [h|h].
  - apply Rle_trans with (2 := proj1 (rv_series_norm v h)). unfold series_loss.
    assert ((vnorm v * vnorm v / 4) ^ 4 <= (a / 2) ^ 8); [|lra].
    replace ((vnorm v * vnorm v / 4) ^ 4) with ((vnorm v / 2) ^ 8) by field. apply pow_incr. lra.
  - assert (0 <= (a / 2) ^ 8) by (apply pow_le; lra).
    destruct (rv_closed v) as [[E|E] _]; [lra| |]; rewrite E, ?qnorm2_neg, exact_unit; unfold series_loss; lra.
Qed.

(** what a step that is carried out does *)
Lemma y_mechanise_attitude cur last n n' : y_mechanise cur last n = Some n' -> 1 / 10000 <= Rabs (i_gpst cur - y_time n) ->
  exists zeta turn, y_Qbn n' = qmul (qmul (qconj (rv_to_quaternion zeta)) (y_Qbn n)) (rv_to_quaternion turn) /\
    turn = gyro_to_rv (i_gyro (y_compensate cur n (i_gpst cur - y_time n))) (i_gyro (y_compensate last n (i_gpst cur - y_time n))) /\
    y_Cbn n' = y_quaternion_to_dcm (y_Qbn n') /\ y_att n' = dcm_to_euler (y_Cbn n').
Proof.
  intros H Hd. unfold y_mechanise in H. destruct (Rlt_dec (Rabs (i_gpst cur - y_time n)) (1 / 10000)); [lra|]. cbv zeta in H.
  apply bind_some in H as (en0 & _ & H). apply bind_some in H as (ll & _ & H). apply bind_some in H as (en1 & _ & H).
  apply bind_some in H as (qn & _ & H). apply bind_some in H as (place & _ & H). apply bind_some in H as (en2 & _ & H).
  injection H as <-. cbn [y_Qbn y_Cbn y_att]. rewrite !y_mul_same, !y_rv_same, y_conj_same.
  eexists _, _. split; [reflexivity|]. split; [reflexivity|]. split; reflexivity.
Qed.
Lemma y_step_norm cur last n n' : y_mechanise cur last n = Some n' ->
  (Rabs (i_gpst cur - y_time n) < 1 / 10000 /\ n' = n) \/
  exists zeta turn, turn = gyro_to_rv (i_gyro (y_compensate cur n (i_gpst cur - y_time n))) (i_gyro (y_compensate last n (i_gpst cur - y_time n))) /\
    qnorm2 (y_Qbn n') = qnorm2 (rv_to_quaternion zeta) * qnorm2 (y_Qbn n) * qnorm2 (rv_to_quaternion turn) /\
    y_Cbn n' = y_quaternion_to_dcm (y_Qbn n') /\ y_att n' = dcm_to_euler (y_Cbn n').
Proof.
  intros H. destruct (Rlt_dec (Rabs (i_gpst cur - y_time n)) (1 / 10000)) as [L|L].
  - left. split; [exact L|]. unfold y_mechanise in H. destruct (Rlt_dec (Rabs (i_gpst cur - y_time n)) (1 / 10000)); [|contradiction].
    congruence.
  - right. destruct (y_mechanise_attitude cur last n n' H) as (z & t & A & B & C & D); [lra|].
    exists z, t. split; [exact B|]. split; [|split; assumption]. rewrite A, !qnorm2_mul, qnorm2_conj. ring.
Qed.

(** * runs *)
Lemma y_run_cons n last x r m : y_run n last (x :: r) = Some m ->
  exists n1, y_mechanise x last n = Some n1 /\ y_run n1 x r = Some m.
Proof. cbn [y_run]. apply bind_some. Qed.
Lemma loss_PI : 0 <= series_loss PI <= 1 / 100.
Proof.
  unfold series_loss. assert (A := PI_lt). assert (B := PI_RGT_0). split.
  - assert (0 <= (PI / 2) ^ 8) by (apply pow_le; lra). lra.
  - assert ((PI / 2) ^ 8 <= (158 / 100) ^ 8) by (apply pow_incr; lra). simpl in *. lra.
Qed.
Lemma rv_norm_ge_any v : 1 - series_loss PI <= qnorm2 (rv_to_quaternion v).
Proof.
  destruct (Rle_dec (vnorm v) PI) as [h|h]; [apply rv_norm_ge, h|]. assert (L := loss_PI).
  destruct (rv_closed v) as [[E|E] _]; [lra| |]; rewrite E, ?qnorm2_neg, exact_unit; lra.
Qed.
Definition py_ok (n : pynav) : Prop :=
  0 < qnorm2 (y_Qbn n) /\ exists c, rotation c /\ y_Cbn n = mscale (qnorm2 (y_Qbn n)) c.
Lemma y_step_ok cur last n n' : y_mechanise cur last n = Some n' -> py_ok n ->
  py_ok n' /\ (1 - series_loss PI) ^ 2 * qnorm2 (y_Qbn n) <= qnorm2 (y_Qbn n') <= qnorm2 (y_Qbn n).
Proof.
  intros H (P & C). assert (L := loss_PI).
  destruct (y_step_norm _ _ _ _ H) as [(_ & ->)|(z & t & _ & E & D & _)].
  - split; [split; assumption|]. split; [|lra].
    apply Rle_trans with (1 * qnorm2 (y_Qbn n)); [|lra]. apply Rmult_le_compat_r; [lra|]. simpl. nra.
  - assert (Z := rv_norm_le z). assert (T := rv_norm_le t). assert (ZP := rv_norm_ge_any z). assert (TP := rv_norm_ge_any t).
    set (a := qnorm2 (rv_to_quaternion z)) in *. set (b := qnorm2 (rv_to_quaternion t)) in *. set (q := qnorm2 (y_Qbn n)) in *.
    assert (AB : (1 - series_loss PI) ^ 2 <= a * b <= 1).
    { split.
      - simpl. rewrite Rmult_1_r. apply Rmult_le_compat; lra.
      - apply Rle_trans with (1 * 1); [apply Rmult_le_compat; lra|lra]. }

    assert (P' : 0 < qnorm2 (y_Qbn n')) by (rewrite E; apply Rmult_lt_0_compat; [apply Rmult_lt_0_compat|]; lra).
    split.
    + split; [exact P'|]. rewrite D. apply y_dcm_rotation, P'.
    + rewrite E. replace (a * q * b) with (a * b * q) by ring. split; [apply Rmult_le_compat_r; lra|].
      rewrite <- (Rmult_1_l q) at 2. apply Rmult_le_compat_r; lra.
Qed.
Lemma y_run_ok xs : forall n last n', y_run n last xs = Some n' -> py_ok n ->
  py_ok n' /\ (1 - series_loss PI) ^ (2 * length xs) * qnorm2 (y_Qbn n) <= qnorm2 (y_Qbn n') <= qnorm2 (y_Qbn n).
Proof.
  assert (L := loss_PI).
  induction xs as [|x r IH]; intros n last n' H O.
  - injection H as <-. split; [exact O|]. change (2 * length (@nil imu))%nat with 0%nat. rewrite pow_O. lra.
  - apply y_run_cons in H as (n1 & H1 & H). destruct (y_step_ok _ _ _ _ H1 O) as (O1 & B).
    destruct (IH _ _ _ H O1) as (O2 & B2). split; [exact O2|].
    replace (2 * length (x :: r))%nat with (2 * length r + 2)%nat by (cbn [length]; lia).
    rewrite pow_add. split; [|lra]. eapply Rle_trans; [|apply (proj1 B2)].
    rewrite Rmult_assoc. apply Rmult_le_compat_l; [apply pow_le; lra|apply (proj1 B)].
Qed.
Lemma y_nav_ok t lat lon h vn a : py_ok (y_nav t lat lon h vn a) /\ qnorm2 (y_Qbn (y_nav t lat lon h vn a)) = 1.
Proof.
  assert (N : qnorm2 (y_Qbn (y_nav t lat lon h vn a)) = 1) by apply euler_quaternion_unit.
  split; [|exact N]. split; [rewrite N; lra|]. rewrite N.
  exists (euler_to_dcm (V (vx a * PI / 180) (vy a * PI / 180) (vz a * PI / 180))). split.
  - rewrite <- euler_dcm_quaternion. apply dcm_rotation, euler_quaternion_unit.
  - unfold y_nav. cbn [y_Cbn]. apply mat_ext; cbn; ring.
Qed.

(** a unit that turns by the same angle in every epoch *)
Lemma y_step_bias cur last n n' : y_mechanise cur last n = Some n' -> y_gb n' = y_gb n /\ y_gs n' = y_gs n.
Proof.
  intros H. unfold y_mechanise in H. destruct (Rlt_dec (Rabs (i_gpst cur - y_time n)) (1 / 10000)).
  - injection H as <-. split; reflexivity.
  - cbv zeta in H.
    apply bind_some in H as (en0 & _ & H). apply bind_some in H as (ll & _ & H). apply bind_some in H as (en1 & _ & H).
    apply bind_some in H as (qn & _ & H). apply bind_some in H as (place & _ & H). apply bind_some in H as (en2 & _ & H).
    injection H as <-. split; reflexivity.
Qed.
Lemma y_step_time cur last n n' : y_mechanise cur last n = Some n' -> 1 / 10000 <= Rabs (i_gpst cur - y_time n) -> y_time n' = i_gpst cur.
Proof.
  intros H D. unfold y_mechanise in H. destruct (Rlt_dec (Rabs (i_gpst cur - y_time n)) (1 / 10000)); [lra|]. cbv zeta in H.
  apply bind_some in H as (en0 & _ & H). apply bind_some in H as (ll & _ & H). apply bind_some in H as (en1 & _ & H).
  apply bind_some in H as (qn & _ & H). apply bind_some in H as (place & _ & H). apply bind_some in H as (en2 & _ & H).
  injection H as <-. reflexivity.
Qed.
Lemma gyro_no_bias x n dt : y_gb n = vzero -> y_gs n = vzero -> i_gyro (y_compensate x n dt) = i_gyro x.
Proof. intros A B. unfold y_compensate. cbn [i_gyro]. rewrite A, B. destruct (i_gyro x). apply vec_ext; simpl; ring. Qed.
Lemma gyro_rv_same g : gyro_to_rv g g = g.
Proof. unfold gyro_to_rv. destruct g. apply vec_ext; simpl; field. Qed.
(** samples with the increment g, at least 0.1 ms apart *)
Fixpoint spinning (g : vec) (t0 : R) (xs : list imu) : Prop :=
  match xs with [] => True | x :: r => i_gyro x = g /\ 1 / 10000 <= i_gpst x - t0 /\ spinning g (i_gpst x) r end.
Lemma y_spin g xs : forall n last n', y_run n last xs = Some n' -> y_gb n = vzero -> y_gs n = vzero -> i_gyro last = g ->
  spinning g (y_time n) xs -> qnorm2 (y_Qbn n') <= qnorm2 (rv_to_quaternion g) ^ length xs * qnorm2 (y_Qbn n).
Proof.
  assert (G := rv_norm_pos g).
  induction xs as [|x r IH]; intros n last n' H GB GS HL S.
  - injection H as <-. cbn [length pow]. lra.
  - apply y_run_cons in H as (n1 & H1 & H). destruct S as (Sg & St & Sr). assert (B := y_step_bias _ _ _ _ H1).
    assert (T := y_step_time _ _ _ _ H1 ltac:(rewrite Rabs_pos_eq; lra)).
    assert (I := IH n1 x n' H ltac:(rewrite (proj1 B); exact GB) ltac:(rewrite (proj2 B); exact GS) Sg ltac:(rewrite T; exact Sr)).
    eapply Rle_trans; [exact I|]. cbn [length pow].
    replace (qnorm2 (rv_to_quaternion g) * qnorm2 (rv_to_quaternion g) ^ length r * qnorm2 (y_Qbn n))
      with (qnorm2 (rv_to_quaternion g) ^ length r * (qnorm2 (rv_to_quaternion g) * qnorm2 (y_Qbn n))) by ring.
    apply Rmult_le_compat_l; [apply pow_le; lra|].
    destruct (y_step_norm _ _ _ _ H1) as [(A & _)|(z & t & E & -> & _ & _)]; [rewrite Rabs_pos_eq in A; lra|].
    rewrite !gyro_no_bias, Sg, HL, gyro_rv_same in E by assumption. subst t.
    assert (Z := rv_norm_le z). assert (ZP := rv_norm_pos z). assert (Q := qnorm2_nonneg (y_Qbn n)).
    rewrite Rmult_assoc, (Rmult_comm (qnorm2 (y_Qbn n))). rewrite <- (Rmult_1_l (_ * qnorm2 (y_Qbn n))) at 2.
    apply Rmult_le_compat_r; [apply Rmult_le_pos; lra|exact Z].
Qed.

(** * the object that is passed in *)
Lemma y_call_alias m cur last r m' r' : y_call m cur last r = Some (m', r') ->
  r' = r /\ Some (m' r') = y_mechanise cur last (m r) /\ (forall k, k <> r -> m' k = m k).
Proof.
  unfold y_call. destruct (y_mechanise cur last (m r)) eqn:E; [|discriminate]. intros H. injection H as <- <-.
  split; [reflexivity|]. rewrite Nat.eqb_refl. split; [reflexivity|]. intros k K.
  destruct (Nat.eqb_spec k r); [contradiction|reflexivity].
Qed.
Lemma y_distance_self n : y_distance n n = vzero.
Proof. unfold y_distance, y_dN, y_dE. apply vec_ext; simpl; ring. Qed.

(** * a unit at rest *)
Definition qscale (k : R) (q : quat) : quat := Q (k * qw q) (k * qx q) (k * qy q) (k * qz q).
Lemma turn_scale q v : qnorm2 q = 1 ->
  qmul (qmul (qconj (rv_to_quaternion v)) q) (rv_to_quaternion (mvec (mtrans (quaternion_to_dcm q)) v)) = qscale (qnorm2 (rv_to_quaternion v)) q.
Proof.
  intros H. rewrite rv_conj by exact H. set (r := rv_to_quaternion v).
  replace (qmul (qmul (qconj r) q) (qmul (qmul (qconj q) r) q)) with (qmul (qmul (qconj r) (qmul (qmul q (qconj q)) r)) q).
  2:{ rewrite !qmul_assoc. reflexivity. }
  rewrite qmul_conj_r, H. fold qone. rewrite qmul_one_l, qmul_conj_l. destruct q. apply quat_ext; simpl; ring.
Qed.
Lemma turn_scale_k k q v : qnorm2 q = 1 ->
  qmul (qmul (qconj (rv_to_quaternion v)) (qscale k q)) (rv_to_quaternion (mvec (mtrans (quaternion_to_dcm q)) v))
  = qscale (k * qnorm2 (rv_to_quaternion v)) q.
Proof.
  intros H. assert (T := turn_scale q v H). set (r := rv_to_quaternion v) in *.
  set (r2 := rv_to_quaternion (mvec (mtrans (quaternion_to_dcm q)) v)) in *.
  transitivity (qscale k (qmul (qmul (qconj r) q) r2)).
  - destruct q, r, r2. apply quat_ext; simpl; ring.
  - rewrite T. destruct q. apply quat_ext; simpl; ring.
Qed.
Lemma lla_opt_scale k q : 0 < k -> lla_opt (qscale k q) = lla_opt q.
Proof.
  intros K. unfold lla_opt, qne_to_lla, qscale. cbn [latitude longitude qw qx qy qz]. rewrite atan2_scale by exact K.
  replace (xdiv (k * qy q) (k * qw q)) with (xdiv (qy q) (qw q)); [reflexivity|].
  unfold xdiv. destruct (Req_EM_T (qw q) 0) as [e|e]; destruct (Req_EM_T (k * qw q) 0) as [f|f].
  - destruct (Rlt_dec 0 (qy q)); destruct (Rlt_dec 0 (k * qy q)); try nra; [reflexivity|].
    destruct (Rlt_dec (qy q) 0); destruct (Rlt_dec (k * qy q) 0); try nra; reflexivity.
  - exfalso. apply f. rewrite e. ring.
  - exfalso. apply e. apply Rmult_integral in f as [f|f]; [lra|exact f].
  - f_equal. field. split; [exact e|lra].
Qed.
Lemma qscale_norm k q : qnorm2 (qscale k q) = k * k * qnorm2 q.
Proof. destruct q. unfold qnorm2; simpl; ring. Qed.
Lemma normalized_scale k q : 0 < k -> qnorm2 q = 1 -> y_normalize (qscale k q) = Some q.
Proof.
  intros K H. rewrite y_normalize_same; [|rewrite qscale_norm, H; nra]. f_equal.
  rewrite <- (qnormalized_scale k q K H) at 2. f_equal. destruct q. apply quat_ext; simpl; ring.
Qed.
Definition py_rest (n : pynav) (lat lon h k c : R) (q : quat) : Prop :=
  y_lat n = lat /\ y_lon n = lon /\ y_h n = h /\ y_Vn n = vzero /\ y_dvn n = vzero /\ y_Qne n = lla_to_qne lat lon /\
  y_Qbn n = qscale k q /\ y_Cbn n = mscale c (quaternion_to_dcm q) /\
  y_gb n = vzero /\ y_ab n = vzero /\ y_gs n = vzero /\ y_as n = vzero.
Lemma y_no_bias x n dt : y_gb n = vzero -> y_gs n = vzero -> y_ab n = vzero -> y_as n = vzero -> y_compensate x n dt = x.
Proof.
  intros A B C D. unfold y_compensate. rewrite A, B, C, D. destruct x as [t g a], g, a. cbn [i_gpst i_gyro i_acce].
  f_equal; apply vec_ext; simpl; ring.
Qed.
Lemma turn_half lat lon k : qmul (qmul (qconj (rv_to_quaternion (vscale k omega_ie_e))) (lla_to_qne lat lon))
    (rv_to_quaternion (vscale k (omega_ie_n lat))) = qscale (qnorm2 (rv_to_quaternion (vscale k omega_ie_e))) (lla_to_qne lat lon).
Proof. rewrite (earth_turn_local lat lon). apply turn_scale, qne_unit. Qed.
Lemma y_step_rest n lat lon h k c q t ap gp tp dt : py_rest n lat lon h k c q -> qnorm2 q = 1 -> place_ok lat lon h ->
  dt = t - y_time n -> 1 / 10000 <= Rabs dt ->
  let a := mvec (mtrans (quaternion_to_dcm q)) (balanced lat h dt) in
  let g := rest_gyro (quaternion_to_dcm q) lat dt in
  let K := k * qnorm2 (rv_to_quaternion (earth_turn lat dt)) in
  let u := (1 - c) * (gravity lat h * dt) in
  ((ap = vzero /\ gp = vzero) \/ (ap = a /\ gp = g)) ->
  exists n', y_mechanise (Imu t g a) (Imu tp gp ap) n = Some n' /\ y_time n' = t /\
    y_lat n' = lat /\ y_lon n' = lon /\ y_h n' = h - u / 2 * dt /\ y_Vn n' = V 0 0 u /\ y_dvn n' = V 0 0 u /\
    y_Qne n' = lla_to_qne lat lon /\ y_Qbn n' = qscale K q /\ y_Cbn n' = mscale (K * K) (quaternion_to_dcm q) /\
    y_gb n' = vzero /\ y_ab n' = vzero /\ y_gs n' = vzero /\ y_as n' = vzero.
Proof.
  intros (Hlat & Hlon & Hh & HV & HD & HN & HQ & HC & B1 & B2 & B3 & B4) Hq P Hdt Hb a g K u Hp.
  assert (RC := dcm_rotation q Hq). assert (KP := rv_norm_pos (vscale dt omega_ie_e)).
  assert (KP2 := rv_norm_pos (vscale (dt / 2) omega_ie_e)).
  unfold y_mechanise. cbn [i_gpst]. rewrite <- Hdt. destruct (Rlt_dec (Rabs dt) (1 / 10000)); [lra|]. cbv zeta.
  rewrite !y_no_bias by assumption. cbn [i_gyro i_acce i_gpst]. rewrite Hlat, Hh, HV, HD, HN, HQ, HC.
  change (vx vzero) with 0. change (vy vzero) with 0. change (vz vzero) with 0.
  assert (W : forall hh, place_ok lat lon hh -> forall d : R, y_en 0 0 hh lat = Some vzero).
  { intros hh PP d. rewrite (y_en_same 0 0 d hh lat lon). apply wen_opt_vertical, PP. }
  rewrite (W h P 0). cbn [bind]. rewrite !vadd_zero_l. rewrite !y_rv_same, !y_mul_same, !y_conj_same.
  rewrite !y_ie_same. change y_ie_e with omega_ie_e. rewrite !half_turn, turn_half, y_lla_same, lla_opt_scale by assumption.
  rewrite (lla_opt_place _ _ _ P). cbn [bind fst snd].
  replace (h - 0 * dt / 2) with h by (unfold Rdiv; ring).
  change (vx (vscale (5 / 10) vzero)) with (5 / 10 * 0).
  change (vy (vscale (5 / 10) vzero)) with (5 / 10 * 0).
  replace (5 / 10 * 0) with 0 by ring. rewrite (W h P 0). cbn [bind]. rewrite !vadd_zero_l, !vadd_zero_r, !y_ie_same.
  rewrite !y_mul_same, !y_rv_same, turn_half.
  rewrite (normalized_scale _ _ KP (qne_unit lat lon)). cbn [bind]. rewrite y_lla_same, (lla_opt_place _ _ _ P). cbn [bind fst snd].
  rewrite y_g_same.
  assert (F : forall C, C = quaternion_to_dcm q ->
    mvec (mmul (msub eye (mscale (5 / 10) (y_skew (vscale dt (omega_ie_n lat))))) (mscale c C))
      (vadd (vadd a (vscale (5 / 10) (cross g a))) (vdiv (vadd (cross gp a) (cross ap g)) 12)) = V 0 0 (- (c * (gravity lat h * dt)))).
  { intros C ->. assert (S := rest_sculling (quaternion_to_dcm q) lat dt (balanced lat h dt) ap gp RC). cbv zeta in S.
    fold g a in S. specialize (S Hp). rewrite residual_balanced in S.
    replace (5 / 10) with (1 / 2) by field. change (y_skew (vscale dt (omega_ie_n lat))) with (skew (vscale dt (omega_ie_n lat))).
    replace (vscale dt (omega_ie_n lat)) with (earth_turn lat dt) by (unfold earth_turn, omega_ie_n; apply vec_ext; simpl; ring).
    set (M1 := msub eye (mscale (1 / 2) (skew (earth_turn lat dt)))) in *. set (w := vadd (vadd a _) _) in *.
    transitivity (vscale c (mvec (mmul M1 (quaternion_to_dcm q)) w)).
    - clearbody M1 w. destruct M1, (quaternion_to_dcm q), w. apply vec_ext; simpl; ring.
    - rewrite S. apply vec_ext; simpl; ring. }
  rewrite (F _ eq_refl). clear F.
  replace (vscale dt (vsub (V 0 0 (gravity lat h)) (cross (vscale 2 (omega_ie_n lat)) vzero))) with (V 0 0 (gravity lat h * dt))
    by (apply vec_ext; simpl; ring).
  replace (vadd (V 0 0 (- (c * (gravity lat h * dt)))) (V 0 0 (gravity lat h * dt))) with (V 0 0 u) by (apply vec_ext; simpl; unfold u; ring).
  cbn [vdiv vadd vx vy vz vzero]. 
  replace (y_en (0 / 2) (0 / 2) h lat) with (Some vzero) by (unfold Rdiv; rewrite !Rmult_0_l; symmetry; apply (W h P 0)).
  cbn [bind].
  assert (G : gyro_to_rv g gp = g).
  { unfold gyro_to_rv. destruct Hp as [(_ & ->)|(_ & ->)]; destruct g; apply vec_ext; simpl; field. }
  change (y_gyro_to_rv g gp) with (gyro_to_rv g gp). rewrite G, vadd_zero_r, !y_mul_same, y_rv_same, y_ie_same, y_conj_same.
  replace (vscale dt (omega_ie_n lat)) with (earth_turn lat dt) by (unfold earth_turn, omega_ie_n; apply vec_ext; simpl; ring).
  unfold g, rest_gyro. rewrite turn_scale_k by exact Hq. fold K.
  eexists. split; [reflexivity|]. cbn [y_time y_lat y_lon y_h y_Vn y_dvn y_Qne y_Qbn y_Cbn y_gb y_ab y_gs y_as].
  rewrite B1, B2, B3, B4. change (y_quaternion_to_dcm (qscale K q)) with (y_quaternion_to_dcm (Q (K * qw q) (K * qx q) (K * qy q) (K * qz q))).
  rewrite y_dcm_scaled, (y_dcm_unit q Hq). repeat split; reflexivity.
Qed.
Lemma qscale_one q : qscale 1 q = q. Proof. destruct q. apply quat_ext; simpl; ring. Qed.
Definition deg (x : R) : R := x * PI / 180.
Lemma y_nav_rest t lat lon h a : let e := V (deg (vx a)) (deg (vy a)) (deg (vz a)) in
  py_rest (y_nav t lat lon h vzero a) (deg lat) (deg lon) h 1 1 (euler_to_quaternion e).
Proof.
  unfold py_rest, y_nav. cbn. rewrite y_qne_same, qscale_one. unfold deg. repeat split; try reflexivity.
  rewrite euler_dcm_quaternion. apply mat_ext; cbn; ring.
Qed.
Lemma earth_turn_norm lat dt : 0 <= dt -> vnorm (earth_turn lat dt) = omega_e * dt.
Proof.
  intros H. unfold vnorm. rewrite turn_size. replace ((omega_e * dt) ^ 2) with ((omega_e * dt) * (omega_e * dt)) by ring.
  apply sqrt_square. apply Rmult_le_pos; [unfold omega_e; lra|exact H].
Qed.
Lemma place_deg lat lon h : -90 < lat < 90 -> -180 < lon < 180 -> -6000000 < h -> place_ok (deg lat) (deg lon) h.
Proof. intros. assert (P := PI_RGT_0). unfold place_ok, deg. repeat split; try nra. Qed.
Lemma py_rests t0 lat lon h att dt : -90 < lat < 90 -> -180 < lon < 180 -> -6000000 < h -> 1 / 10000 <= dt -> omega_e * dt < PI ->
  let C := euler_to_dcm (V (deg (vx att)) (deg (vy att)) (deg (vz att))) in
  exists acce, vnorm (vsub acce (rest_force C (deg lat) h dt)) <= rest_bound (deg lat) h dt /\
  let sample t := Imu t (rest_gyro C (deg lat) dt) acce in
  exists n1 n2 k,
    y_run (y_nav t0 lat lon h vzero att) (Imu t0 vzero vzero) [sample (t0 + dt)] = Some n1 /\
    y_run (y_nav t0 lat lon h vzero att) (Imu t0 vzero vzero) [sample (t0 + dt); sample (t0 + dt + dt)] = Some n2 /\
    1 - series_loss (omega_e * dt) <= k < 1 /\
    (y_lat n1 = deg lat /\ y_lon n1 = deg lon /\ y_h n1 = h /\ y_Vn n1 = vzero /\ y_Cbn n1 = mscale (k * k) C) /\
    (y_lat n2 = deg lat /\ y_lon n2 = deg lon /\ y_h n2 < h /\
     y_Vn n2 = V 0 0 ((1 - k * k) * (gravity (deg lat) h * dt)) /\ 0 < vz (y_Vn n2)).
Proof.
  intros Hlat Hlon Hh Hd Ho C. set (e := V (deg (vx att)) (deg (vy att)) (deg (vz att))) in *.
  set (q := euler_to_quaternion e). assert (Hq : qnorm2 q = 1) by apply euler_quaternion_unit.
  assert (HC : C = quaternion_to_dcm q) by (symmetry; apply euler_dcm_quaternion).
  assert (P := place_deg lat lon h Hlat Hlon Hh).
  assert (RC : rotation C) by (rewrite HC; apply dcm_rotation, Hq).
  exists (mvec (mtrans C) (balanced (deg lat) h dt)). split; [apply rest_force_gap; [exact RC|lra]|].
  intros sample. assert (N0 := y_nav_rest t0 lat lon h att). cbv zeta in N0. fold e q in N0.
  set (n0 := y_nav t0 lat lon h vzero att) in *.
  assert (OP : 0 < omega_e) by (unfold omega_e; lra).
  assert (EN := earth_turn_norm (deg lat) dt ltac:(lra)).
  assert (EZ : earth_turn (deg lat) dt <> vzero).
  { intros E. rewrite E in EN. unfold vnorm, dot in EN. simpl in EN. rewrite !Rmult_0_l, !Rplus_0_l, sqrt_0 in EN. nra. }
  set (k := qnorm2 (rv_to_quaternion (earth_turn (deg lat) dt))).
  assert (K1 : k < 1) by (apply rv_norm_lt; [exact EZ|rewrite EN; exact Ho]).
  assert (K0 : 1 - series_loss (omega_e * dt) <= k) by (apply rv_norm_ge; rewrite EN; lra).
  assert (KP : 0 < k) by apply rv_norm_pos.
  assert (G := gravity_positive (deg lat) h). assert (GD : 0 < gravity (deg lat) h * dt) by (apply Rmult_lt_0_compat; lra).
  destruct (y_step_rest n0 (deg lat) (deg lon) h 1 1 q (t0 + dt) vzero vzero t0 dt N0 Hq P)
    as (n1 & S1 & T1 & A1 & A2 & A3 & A4 & A5 & A6 & A7 & A8 & A9 & A10 & A11 & A12).
  { change (y_time n0) with t0. ring. } { rewrite Rabs_pos_eq; lra. } { left. split; reflexivity. }
  rewrite <- HC in S1. fold (sample (t0 + dt)) in S1. fold k in A7, A8. rewrite Rmult_1_l in A7, A8.
  replace ((1 - 1) * (gravity (deg lat) h * dt)) with 0 in A3, A4, A5 by ring.
  replace (h - 0 / 2 * dt) with h in A3 by (unfold Rdiv; ring).
  assert (N1 : py_rest n1 (deg lat) (deg lon) h k (k * k) q) by (unfold py_rest; repeat split; assumption).
  destruct (y_step_rest n1 (deg lat) (deg lon) h k (k * k) q (t0 + dt + dt) (mvec (mtrans C) (balanced (deg lat) h dt))
     (rest_gyro C (deg lat) dt) (t0 + dt) dt N1 Hq P)
    as (n2 & S2 & T2 & B1 & B2 & B3 & B4 & _).
  { rewrite T1. ring. } { rewrite Rabs_pos_eq; lra. } { right. rewrite HC. split; reflexivity. }
  rewrite <- HC in S2. fold (sample (t0 + dt + dt)) (sample (t0 + dt)) in S2.
  exists n1, n2, k. assert (kk : 0 < 1 - k * k) by nra.
  assert (V0 : 0 < (1 - k * k) * (gravity (deg lat) h * dt)) by (apply Rmult_lt_0_compat; assumption).
  split; [cbn [y_run]; rewrite S1; reflexivity|]. split; [cbn [y_run]; rewrite S1; cbn [bind]; rewrite S2; reflexivity|].
  split; [lra|]. split.
  - rewrite A1, A2, A3, A4, A8, HC. repeat split; reflexivity.
  - rewrite B1, B2, B3, B4. repeat split; try reflexivity; [|simpl; exact V0]. nra.
Qed.

(** * order of the samples *)
Lemma y_drop cur last n : Rabs (i_gpst cur - y_time n) < 1 / 10000 -> y_mechanise cur last n = Some n.
Proof. intros H. unfold y_mechanise. destruct (Rlt_dec (Rabs (i_gpst cur - y_time n)) (1 / 10000)); [reflexivity|contradiction]. Qed.
Lemma y_backwards t0 lat lon h att back : -90 < lat < 90 -> -180 < lon < 180 -> -6000000 < h -> 1 / 10000 <= back ->
  exists g a n, y_mechanise (Imu (t0 - back) g a) (Imu t0 vzero vzero) (y_nav t0 lat lon h vzero att) = Some n /\ y_time n = t0 - back.
Proof.
  intros Hlat Hlon Hh Hb. assert (P := place_deg lat lon h Hlat Hlon Hh). assert (N0 := y_nav_rest t0 lat lon h att). cbv zeta in N0.
  set (q := euler_to_quaternion (V (deg (vx att)) (deg (vy att)) (deg (vz att)))) in *.
  destruct (y_step_rest _ (deg lat) (deg lon) h 1 1 q (t0 - back) vzero vzero t0 (- back) N0 (euler_quaternion_unit _) P)
    as (n1 & S1 & T1 & _).
  { unfold y_nav; cbn [y_time]. ring. } { rewrite Rabs_Ropp, Rabs_pos_eq; lra. } { left. split; reflexivity. }
  eexists _, _, n1. split; [exact S1|exact T1].
Qed.
