(** The error of the attitude does not grow faster than the sum of the errors of the single turns (C140). *)
From Coq Require Import Reals List Lra Psatz.
From Verif Require Import RealMath EarthModel ConvertModel ConvertSpec ConvertProofs SmoothModel InsModel InsProofs AhrsLevel InsSpec InsRest InsRest2 JacobianSpec AttitudeSpec.
Import ListNotations.
Open Scope R_scope.

Definition qadd (a b : quat) : quat := Q (qw a + qw b) (qx a + qx b) (qy a + qy b) (qz a + qz b).
Definition qsub (a b : quat) : quat := Q (qw a - qw b) (qx a - qx b) (qy a - qy b) (qz a - qz b).
Definition qn (a : quat) : R := sqrt (qnorm2 a).
Lemma qn_nonneg a : 0 <= qn a. Proof. apply sqrt_pos. Qed.
Lemma qn_sq a : qn a * qn a = qnorm2 a. Proof. apply sqrt_sqrt, qnorm2_nonneg. Qed.
Lemma qn_unit a : qnorm2 a = 1 -> qn a = 1. Proof. intros H. unfold qn. rewrite H. apply sqrt_1. Qed.
Lemma qn_mul a b : qn (qmul a b) = qn a * qn b.
Proof. unfold qn. rewrite qnorm2_mul. apply sqrt_mult; apply qnorm2_nonneg. Qed.
Lemma qn_conj a : qn (qconj a) = qn a. Proof. unfold qn. rewrite qnorm2_conj. reflexivity. Qed.
Lemma qn_le a c : 0 <= c -> qnorm2 a <= c * c -> qn a <= c.
Proof. intros H K. unfold qn. rewrite <- (sqrt_square c H). apply sqrt_le_1_alt. exact K. Qed.
Lemma qdot_le a b : qw a * qw b + qx a * qx b + qy a * qy b + qz a * qz b <= qn a * qn b.
Proof.
  rewrite <- (qn_conj a), <- qn_mul. unfold qn. apply Rle_trans with (Rabs (qw (qmul (qconj a) b))).
  - apply Rle_trans with (qw (qmul (qconj a) b)); [|apply Rle_abs]. destruct a, b. cbn. lra.
  - rewrite <- sqrt_Rsqr_abs. apply sqrt_le_1_alt. unfold qnorm2, Rsqr. nra.
Qed.
Lemma qn_triangle a b : qn (qadd a b) <= qn a + qn b.
Proof.
  apply qn_le; [generalize (qn_nonneg a) (qn_nonneg b); lra|].
  replace (qnorm2 (qadd a b)) with (qnorm2 a + qnorm2 b + 2 * (qw a * qw b + qx a * qx b + qy a * qy b + qz a * qz b))
    by (destruct a, b; unfold qnorm2, qadd; cbn; ring).
  rewrite <- (qn_sq a), <- (qn_sq b). generalize (qdot_le a b). lra.
Qed.
Definition qdist (a b : quat) : R := qn (qsub a b).
Lemma qdist_triangle a b c : qdist a c <= qdist a b + qdist b c.
Proof.
  unfold qdist. replace (qsub a c) with (qadd (qsub a b) (qsub b c)); [apply qn_triangle|].
  destruct a, b, c; unfold qadd, qsub; cbn; f_equal; ring.
Qed.
Lemma qdist_mul_l a b c : qdist (qmul a b) (qmul a c) = qn a * qdist b c.
Proof. unfold qdist. rewrite <- qn_mul. f_equal. destruct a, b, c; unfold qsub, qmul; cbn; f_equal; ring. Qed.
Lemma qdist_mul_r a b c : qdist (qmul b a) (qmul c a) = qdist b c * qn a.
Proof. unfold qdist. rewrite <- qn_mul. f_equal. destruct a, b, c; unfold qsub, qmul; cbn; f_equal; ring. Qed.
Lemma qdist_conj a b : qdist (qconj a) (qconj b) = qdist a b.
Proof. unfold qdist. rewrite <- (qn_conj (qsub a b)). f_equal. destruct a, b; unfold qsub, qconj; cbn; f_equal; ring. Qed.
Lemma qdist_sym a b : qdist a b = qdist b a.
Proof. unfold qdist, qn. f_equal. destruct a, b; unfold qnorm2, qsub; cbn; ring. Qed.
Lemma qn_near a b : qn a <= qn b + qdist a b.
Proof.
  unfold qdist. replace (qn a) with (qn (qadd b (qsub a b))); [apply qn_triangle|]. f_equal.
  destruct a, b; unfold qadd, qsub; cbn; f_equal; ring.
Qed.
(** normalising doubles a distance to a unit quaternion at most *)
Lemma normalised_near q e : 0 < qnorm2 q -> qnorm2 e = 1 -> qdist (qnormalized q) e <= 2 * qdist q e.
Proof.
  intros P U. apply Rle_trans with (qdist (qnormalized q) q + qdist q e); [apply qdist_triangle|].
  assert (E : qdist (qnormalized q) q = Rabs (1 - qn q)).
  { unfold qnormalized. destruct (Rlt_dec 0 (qnorm2 q)); [|contradiction]. fold (qn q).
    assert (N : 0 < qn q) by (apply sqrt_lt_R0; exact P).
    unfold qdist. rewrite <- sqrt_Rsqr_abs. unfold qn at 1. f_equal.
    transitivity ((1 / qn q - 1) * (1 / qn q - 1) * qnorm2 q).
    - destruct q; unfold qnorm2, qsub; cbn. field. lra.
    - rewrite <- qn_sq. unfold Rsqr. field. lra. }
  rewrite E. generalize (qn_near q e) (qn_near e q). rewrite (qdist_sym e q), (qn_unit e U). intros A B.
  assert (Rabs (1 - qn q) <= qdist q e) by (apply Rabs_le; lra). lra.
Qed.

(** the series *)
Lemma sq_bound x b : Rabs x <= b -> x * x <= b * b.
Proof. intros H. generalize (Rabs_pos x). intros K. rewrite <- (Rabs_pos_eq (x * x)) by nra. rewrite Rabs_mult. nra. Qed.
Lemma series_near v : vnorm v < PI -> qdist (rv_to_quaternion v) (exact_quaternion v) <= turn_error v / 4.
Proof.
  intros H. generalize (rv_series_close v H). cbv zeta. intros (A & B & C & D).
  generalize (vnorm_nonneg v). intros N. unfold turn_error. set (t := vnorm v / 2) in *.
  assert (T : 0 <= t < 158 / 100) by (unfold t; generalize PI_lt; lra).
  assert (T8 : 0 <= t ^ 8) by (apply pow_le; lra).
  assert (T9 : t ^ 9 <= t ^ 8 * (158 / 100)) by (replace (t ^ 9) with (t ^ 8 * t) by ring; nra).
  assert (K : t ^ 9 / 362880 <= t ^ 8 / 229000) by lra.
  unfold qdist. apply qn_le; [lra|]. unfold qnorm2, qsub. cbn [qw qx qy qz].
  apply sq_bound in A. assert (B' := sq_bound _ _ (Rle_trans _ _ _ B K)). assert (C' := sq_bound _ _ (Rle_trans _ _ _ C K)).
  assert (D' := sq_bound _ _ (Rle_trans _ _ _ D K)). nra.
Qed.
Lemma turn_error_small v : vnorm v < PI -> 0 <= turn_error v <= 1 / 200.
Proof.
  intros H. generalize (vnorm_nonneg v). intros N. unfold turn_error. set (t := vnorm v / 2) in *.
  assert (T : 0 <= t <= 158 / 100) by (unfold t; generalize PI_lt; lra).
  assert (0 <= t ^ 8) by (apply pow_le; lra). assert (t ^ 8 <= (158 / 100) ^ 8) by (apply pow_incr; lra). lra.
Qed.
(** one step: a sample, a correction *)
Lemma sample_step z p q e : qnorm2 q = 1 -> qnorm2 e = 1 -> vnorm z < PI -> vnorm p < PI ->
  qdist (qnormalized (qmul (qmul (qconj (rv_to_quaternion z)) q) (rv_to_quaternion p)))
        (qmul (qmul (qconj (exact_quaternion z)) e) (exact_quaternion p)) <= qdist q e + turn_error z + turn_error p.
Proof.
  intros U W Z P. set (sz := rv_to_quaternion z). set (sp := rv_to_quaternion p). set (ez := exact_quaternion z). set (ep := exact_quaternion p).
  assert (UZ : qnorm2 ez = 1) by apply exact_unit. assert (UP : qnorm2 ep = 1) by apply exact_unit.
  set (m := qmul (qmul (qconj ez) q) ep).
  assert (UM : qnorm2 m = 1) by (unfold m; rewrite !qnorm2_mul, qnorm2_conj, UZ, UP, U; ring).
  apply Rle_trans with (qdist (qnormalized (qmul (qmul (qconj sz) q) sp)) m + qdist m (qmul (qmul (qconj ez) e) ep)); [apply qdist_triangle|].
  assert (E : qdist m (qmul (qmul (qconj ez) e) ep) = qdist q e).
  { unfold m. rewrite qdist_mul_r, qdist_mul_l, qn_conj, (qn_unit ez UZ), (qn_unit ep UP). ring. }
  rewrite E. assert (0 < qnorm2 (qmul (qmul (qconj sz) q) sp)).
  { rewrite !qnorm2_mul, qnorm2_conj, U. generalize (rv_norm_pos z) (rv_norm_pos p). fold sz sp. intros. nra. }
  generalize (normalised_near _ m H UM). intros N.
  assert (S1 : qdist (qmul (qmul (qconj sz) q) sp) m <= qdist sz ez * qn sp + qdist sp ep).
  { apply Rle_trans with (qdist (qmul (qmul (qconj sz) q) sp) (qmul (qmul (qconj ez) q) sp) + qdist (qmul (qmul (qconj ez) q) sp) m); [apply qdist_triangle|].
    rewrite qdist_mul_r, qdist_mul_r, qdist_conj, (qn_unit q U). unfold m. rewrite qdist_mul_l, qn_mul, qn_conj, (qn_unit ez UZ), (qn_unit q U). lra. }
  generalize (series_near z Z) (series_near p P). fold sz sp ez ep. intros A B.
  generalize (turn_error_small z Z) (turn_error_small p P). intros C D.
  assert (F : qn sp <= 1 + 1 / 800) by (generalize (qn_near sp ep); rewrite (qn_unit ep UP); lra).
  assert (G : 0 <= qdist sz ez) by apply qn_nonneg. assert (0 <= qn sp) by apply qn_nonneg. nra.
Qed.
Lemma correction_step c q e : qnorm2 q = 1 -> qnorm2 e = 1 -> vnorm c < PI ->
  qdist (qnormalized (qmul (rv_to_quaternion c) q)) (qmul (exact_quaternion c) e) <= qdist q e + turn_error c.
Proof.
  intros U W C. set (sc := rv_to_quaternion c). set (ec := exact_quaternion c). assert (UC : qnorm2 ec = 1) by apply exact_unit.
  assert (UM : qnorm2 (qmul ec q) = 1) by (rewrite qnorm2_mul, UC, U; ring).
  apply Rle_trans with (qdist (qnormalized (qmul sc q)) (qmul ec q) + qdist (qmul ec q) (qmul ec e)); [apply qdist_triangle|].
  rewrite qdist_mul_l, (qn_unit ec UC). assert (0 < qnorm2 (qmul sc q)) by (rewrite qnorm2_mul, U; generalize (rv_norm_pos c); fold sc; lra).
  generalize (normalised_near _ _ H UM). rewrite qdist_mul_r, (qn_unit q U). generalize (series_near c C). fold sc ec.
  generalize (turn_error_small c C). intros. lra.
Qed.

(** what a step does to the attitude *)
Lemma forward_turn s x t : forward s x = Some t ->
  n_Qbn (s_nav t) = qnormalized (qmul (qmul (qconj (rv_to_quaternion (level_turn t))) (n_Qbn (s_nav s))) (rv_to_quaternion (body_turn s t))) /\
  n_Cbn (s_nav t) = quaternion_to_dcm (n_Qbn (s_nav t)).
Proof.
  unfold forward, mechanise. intros H. apply bind_some in H. destruct H as (u & H & K). injection K as <-.
  apply bind_some in H. destruct H as (a & A & H). apply bind_some in H. destruct H as (b & B & H). apply bind_some in H. destruct H as (c & C & H).
  injection H as <-.
  unfold extrapolate in A. apply bind_some in A. destruct A as (w0 & _ & A). apply bind_some in A. destruct A as (ll & _ & A).
  apply bind_some in A. destruct A as (w1 & _ & A). injection A as <-.
  unfold velocity_update in B. destruct (Req_EM_T _ _); [discriminate|]. apply bind_some in B. destruct B as (w2 & _ & B). injection B as <-.
  unfold position_update in C. apply bind_some in C. destruct C as (l2 & _ & C). apply bind_some in C. destruct C as (w3 & _ & C). injection C as <-.
  split; reflexivity.
Qed.
Lemma feedback_turn s x t : feedback s x = Some t ->
  n_Qbn (s_nav t) = qnormalized (qmul (rv_to_quaternion (correction_turn s x)) (n_Qbn (s_nav s))) /\
  n_Cbn (s_nav t) = quaternion_to_dcm (n_Qbn (s_nav t)).
Proof.
  unfold feedback. destruct (rates_defined _); [|discriminate]. intros H. apply bind_some in H. destruct H as (ll & _ & H). injection H as <-.
  split; reflexivity.
Qed.
Lemma rv_pos_unit v q : qnorm2 q = 1 -> 0 < qnorm2 (qmul (rv_to_quaternion v) q).
Proof. intros U. rewrite qnorm2_mul, U. generalize (rv_norm_pos v). lra. Qed.

Lemma exact_turn_unit s t o e : qnorm2 e = 1 -> qnorm2 (exact_turn s t o e) = 1.
Proof. intros U. destruct o; cbn; rewrite ?qnorm2_mul, ?qnorm2_conj, !exact_unit, U; ring. Qed.
Lemma sum_app a b : sum_errors (a ++ b) = sum_errors a + sum_errors b.
Proof. induction a as [|x a IH]; unfold sum_errors in *; cbn in *; [lra|]. rewrite IH. lra. Qed.
Lemma attitude_near ops : forall s t e, ins_run s ops = Some t -> qnorm2 (n_Qbn (s_nav s)) = 1 -> qnorm2 e = 1 ->
  Forall (fun v => vnorm v < PI) (all_turns s ops) -> n_Cbn (s_nav s) = quaternion_to_dcm (n_Qbn (s_nav s)) ->
  qdist (n_Qbn (s_nav t)) (exact_attitude s ops e) <= qdist (n_Qbn (s_nav s)) e + sum_errors (all_turns s ops) /\
  qnorm2 (exact_attitude s ops e) = 1 /\ qnorm2 (n_Qbn (s_nav t)) = 1 /\ n_Cbn (s_nav t) = quaternion_to_dcm (n_Qbn (s_nav t)).
Proof.
  induction ops as [|o r IH]; intros s t e H U W F M.
  - injection H as <-. cbn. unfold sum_errors. cbn. repeat split; auto. lra.
  - cbn [ins_run] in H. apply bind_some in H. destruct H as (u & A & H). cbn [all_turns exact_attitude] in *. rewrite A in *.
    apply Forall_app in F. destruct F as [F1 F2]. rewrite sum_app.
    assert (G : qdist (n_Qbn (s_nav u)) (exact_turn s u o e) <= qdist (n_Qbn (s_nav s)) e + sum_errors (turns s u o) /\
      qnorm2 (n_Qbn (s_nav u)) = 1 /\ n_Cbn (s_nav u) = quaternion_to_dcm (n_Qbn (s_nav u))).
    { destruct o as [x|x]; cbn [ins_do] in A; cbn [turns exact_turn] in *.
      - apply forward_turn in A. destruct A as [A B]. rewrite B. rewrite A. split; [|split; [|reflexivity]].
        + generalize (sample_step (level_turn u) (body_turn s u) _ e U W (Forall_inv F1) (Forall_inv (Forall_inv_tail F1))).
          unfold sum_errors. cbn. lra.
        + apply qnormalized_unit. rewrite !qnorm2_mul, qnorm2_conj, U. generalize (rv_norm_pos (level_turn u)) (rv_norm_pos (body_turn s u)). intros. nra.
      - apply feedback_turn in A. destruct A as [A B]. rewrite B. rewrite A. split; [|split; [|reflexivity]].
        + generalize (correction_step (correction_turn s x) _ e U W (Forall_inv F1)). unfold sum_errors. cbn. lra.
        + apply qnormalized_unit, rv_pos_unit, U. }
    destruct G as (G1 & G2 & G3). destruct (IH u t (exact_turn s u o e) H G2 (exact_turn_unit s u o e W) F2 G3) as (I1 & I2 & I3 & I4).
    repeat split; auto. lra.
Qed.

(** in terms of turned vectors *)
Definition qvec (v : vec) : quat := Q 0 (vx v) (vy v) (vz v).
Lemma vnorm_quat v : vnorm v = qn (qvec v).
Proof. unfold vnorm, qn, qnorm2, qvec. cbn. f_equal. unfold dot. ring. Qed.
Lemma rotate_near p q v : qnorm2 p = 1 -> qnorm2 q = 1 -> vnorm (vsub (qrotate p v) (qrotate q v)) <= 2 * qdist p q * vnorm v.
Proof.
  intros U W. rewrite !vnorm_quat.
  assert (E : qvec (vsub (qrotate p v) (qrotate q v)) = qadd (qmul (qmul (qsub p q) (qvec v)) (qconj p)) (qmul (qmul q (qvec v)) (qconj (qsub p q)))).
  { destruct p, q, v. unfold qvec, vsub, qrotate, qadd, qmul, qsub, qconj. cbn. f_equal; ring. }
  rewrite E. eapply Rle_trans; [apply qn_triangle|]. rewrite !qn_mul, !qn_conj, (qn_unit p U), (qn_unit q W). unfold qdist. lra.
Qed.
Lemma attitude_error ops s t : ins_run s ops = Some t -> qnorm2 (n_Qbn (s_nav s)) = 1 -> n_Cbn (s_nav s) = quaternion_to_dcm (n_Qbn (s_nav s)) ->
  Forall (fun v => vnorm v < PI) (all_turns s ops) ->
  let e := exact_attitude s ops (n_Qbn (s_nav s)) in
  qnorm2 e = 1 /\ forall v, vnorm (vsub (mvec (n_Cbn (s_nav t)) v) (qrotate e v)) <= 2 * sum_errors (all_turns s ops) * vnorm v.
Proof.
  intros H U M F e. destruct (attitude_near ops s t (n_Qbn (s_nav s)) H U U F M) as (A & B & C & D). fold e in A, B. split; auto.
  intros v. rewrite D, dcm_rotate by exact C. apply Rle_trans with (2 * qdist (n_Qbn (s_nav t)) e * vnorm v); [apply rotate_near; auto|].
  assert (Z : qdist (n_Qbn (s_nav s)) (n_Qbn (s_nav s)) = 0).
  { unfold qdist. replace (qsub (n_Qbn (s_nav s)) (n_Qbn (s_nav s))) with (Q 0 0 0 0) by (unfold qsub; f_equal; ring).
    unfold qn, qnorm2. cbn. replace (0 * 0 + 0 * 0 + 0 * 0 + 0 * 0) with 0 by ring. apply sqrt_0. }
  rewrite Z in A. generalize (vnorm_nonneg v). intros. nra.
Qed.
(** a limit of the turns limits the sum *)
Lemma sum_bound l c : 0 <= c -> Forall (fun v => vnorm v <= c) l -> sum_errors l <= INR (length l) * ((c / 2) ^ 8 / 9000).
Proof.
  intros C. induction 1 as [|v l H F IH]; unfold sum_errors in *; [cbn; lra|]. cbn [map fold_right]. cbn [length]. rewrite S_INR.
  unfold turn_error at 1. assert ((vnorm v / 2) ^ 8 <= (c / 2) ^ 8) by (apply pow_incr; generalize (vnorm_nonneg v); lra). lra.
Qed.

(** ** a case: a unit at rest whose attitude is then corrected by a tenth of a radian about the vertical *)
Lemma turn_same v : gyro_to_rv v v = v.
Proof. unfold gyro_to_rv. destruct v; apply vec_ext; simpl; field. Qed.
Lemma turn_first v : gyro_to_rv v vzero = v.
Proof. unfold gyro_to_rv. destruct v; apply vec_ext; simpl; field. Qed.
Lemma rest_turn s lat lon h dt q time : qnorm2 q = 1 -> dt <> 0 -> place_ok lat lon h ->
  let a := mvec (mtrans (quaternion_to_dcm q)) (balanced lat h dt) in
  let g := rest_gyro (quaternion_to_dcm q) lat dt in
  at_rest s lat lon h dt q a g ->
  exists t, forward s (Imu time g a) = Some t /\ at_rest t lat lon h dt q a g /\ level_turn t = earth_turn lat dt /\ body_turn s t = g.
Proof.
  intros Hq Hdt P a g HR. destruct (sample_rest s lat lon h dt q time Hq Hdt P HR) as (t & F & R1 & _ & G & _).
  exists t. split; [exact F|]. split; [exact R1|]. split.
  - revert F. unfold forward. cbv zeta. assert (HR2 := HR). destruct HR2 as ((Hp & Hv & Hdv & HQe & HQ & HC & B1 & B2 & B3 & B4) & Ht & Hpre).
    rewrite B1, B2, B3, B4, !compensate_zero. cbn [i_acce i_gyro i_gpst]. unfold mechanise.
    fold a g. rewrite (extrapolate_rest s lat lon h dt q a g HR P). cbn [bind].
    assert (Z : vadd (residual lat dt (balanced lat h dt)) (V 0 0 (gravity lat h * dt)) = V 0 0 0) by (rewrite residual_balanced; apply vec_ext; simpl; ring).
    assert (VU := velocity_rest s lat lon h dt q (balanced lat h dt) 0 a Hq Hdt P eq_refl HR Z). fold g in VU. rewrite VU. cbn [bind].
    assert (P2 : place_ok lat lon (1 / 2 * (h - 0 / 2 * dt + h))) by (replace (1 / 2 * (h - 0 / 2 * dt + h)) with h by field; exact P).
    rewrite position_rest; [|exact P|exact P2|simpl; exact Hp|simpl; exact HQe]. cbn [bind].
    intros F. injection F as <-. unfold level_turn, atti_update. cbn [s_dt s_wie s_wen]. rewrite vadd_zero_r.
    unfold earth_turn, omega_ie_n. apply vec_ext; simpl; ring.
  - unfold body_turn. rewrite G. destruct HR as (_ & _ & [[_ K]|[_ K]]); rewrite K; [apply turn_first|apply turn_same].
Qed.
Definition north_up : err := Err vzero vzero (V 0 0 (1 / 10)) vzero vzero.
Lemma north_turn s lat lon h dt q a g : at_rest s lat lon h dt q a g -> place_ok lat lon h ->
  exists t, feedback s north_up = Some t /\ correction_turn s north_up = V 0 0 (1 / 10).
Proof.
  intros ((Hp & Hv & Hdv & HQe & HQ & HC & _) & _) P. unfold correction_turn, frame_turn, north_up. rewrite Hp. cbn [vx vy vz x_att x_pos vzero].
  assert (Z : V (0 / (RN lat + h)) (-0 / (RM lat + h)) (-0 * tan lat / (RN lat + h)) = vzero) by (unfold vzero; f_equal; unfold Rdiv; ring).
  rewrite Z. rewrite vadd_zero_r. unfold feedback. cbv zeta. rewrite Hp, (place_rates _ _ _ P). cbn [vx vy vz x_pos x_att vzero]. rewrite Z.
  replace (vneg vzero) with vzero by (apply vec_ext; simpl; ring). rewrite rv_zero, qmul_one_r, HQe.
  rewrite (qnormalized_same (lla_to_qne lat lon)) by apply qne_unit. rewrite (lla_opt_place _ _ _ P). cbn [bind]. eexists. split; reflexivity.
Qed.
Definition turn_case : ins := init_pva (Ins (make_nav 0 vzero vzero vzero) 0 vzero vzero vzero vzero vzero vzero 0) (make_nav 0 (V 0 0 0) vzero vzero) 100.
Definition turn_sample (t : R) : imu :=
  Imu t (rest_gyro (quaternion_to_dcm (euler_to_quaternion vzero)) 0 (1 / 100))
        (mvec (mtrans (quaternion_to_dcm (euler_to_quaternion vzero))) (balanced 0 0 (1 / 100))).
Lemma vnorm_z x : 0 <= x -> vnorm (V 0 0 x) = x.
Proof. intros H. unfold vnorm, dot. cbn. replace (0 * 0 + 0 * 0 + x * x) with (x * x) by ring. apply sqrt_square, H. Qed.
Lemma turn_example t : exists u, ins_run turn_case [OpSample (turn_sample t); OpCorrect north_up] = Some u /\
  qnorm2 (n_Qbn (s_nav turn_case)) = 1 /\ n_Cbn (s_nav turn_case) = quaternion_to_dcm (n_Qbn (s_nav turn_case)) /\
  Forall (fun v => vnorm v < PI) (all_turns turn_case [OpSample (turn_sample t); OpCorrect north_up]) /\
  List.In (V 0 0 (1 / 10)) (all_turns turn_case [OpSample (turn_sample t); OpCorrect north_up]).
Proof.
  set (q := euler_to_quaternion vzero). assert (U : qnorm2 q = 1) by apply euler_quaternion_unit.
  assert (R0 := init_at_rest (Ins (make_nav 0 vzero vzero vzero) 0 vzero vzero vzero vzero vzero vzero 0) 0 0 0 0 vzero 100
    (mvec (mtrans (quaternion_to_dcm q)) (balanced 0 0 (1 / 100))) (rest_gyro (quaternion_to_dcm q) 0 (1 / 100))).
  fold turn_case q in R0.
  destruct (rest_turn turn_case 0 0 0 (1 / 100) q t U real_hundredth place_origin R0) as (a & F & R1 & L & B).
  destruct (north_turn a 0 0 0 (1 / 100) q _ _ R1 place_origin) as (u & G & C).
  assert (PI3 : 3 < PI) by (generalize PI_lower; lra).
  assert (W : vnorm (earth_turn 0 (1 / 100)) < PI).
  { unfold vnorm. rewrite turn_size. rewrite <- (sqrt_square PI) by lra. apply sqrt_lt_1_alt. unfold omega_e. split; [lra|]. nra. }
  assert (W2 : vnorm (rest_gyro (quaternion_to_dcm q) 0 (1 / 100)) < PI).
  { replace (rest_gyro (quaternion_to_dcm q) 0 (1 / 100)) with (earth_turn 0 (1 / 100)); [exact W|].
    unfold rest_gyro, q. rewrite euler_dcm_quaternion. unfold euler_to_dcm, vzero. cbn [vx vy vz]. rewrite !sin_0, !cos_0. apply vec_ext; simpl; ring. }
  exists u. cbn [ins_run ins_do all_turns]. unfold turn_sample. fold q. rewrite F. cbn [bind ins_run ins_do turns app]. rewrite G. cbn [bind turns app].
  rewrite L, B, C. repeat split.
  - exact U.
  - unfold turn_case. cbn. symmetry. apply euler_dcm_quaternion.
  - repeat constructor; auto. rewrite vnorm_z; lra.
  - right. right. left. reflexivity.
Qed.
