(** A unit at rest: corrections that are zero, or straight up. *)
From Coq Require Import Reals List Lra Psatz.
From Verif Require Import RealMath EarthModel ConvertModel ConvertSpec ConvertProofs EarthProofs MathWrap SmoothModel
  InsModel InsSpec InsProofs InsRest FusionBase.
Import ListNotations.
Open Scope R_scope.

Lemma rv_zero : rv_to_quaternion vzero = qone.
Proof.
  unfold rv_to_quaternion, qone. cbv zeta. simpl.
  match goal with |- context [Rlt_dec ?a ?b] => destruct (Rlt_dec a b) as [H|H] end.
  - f_equal; field.
  - exfalso. apply H. assert (P := PI_RGT_0). nra.
Qed.
Lemma qnormalized_same q : qnorm2 q = 1 -> qnormalized q = q.
Proof.
  intros H. unfold qnormalized. rewrite H. destruct (Rlt_dec 0 1); [|lra]. rewrite sqrt_1. destruct q; simpl; f_equal; field.
Qed.

(** corrections without a horizontal shift or a turn *)
Definition level_correction (x : err) : Prop := vx (x_pos x) = 0 /\ vy (x_pos x) = 0 /\ x_att x = vzero.

Lemma feedback_level s x lat lon h :
  level_correction x -> place_ok lat lon h -> n_pos (s_nav s) = V lat lon h -> n_Qne (s_nav s) = lla_to_qne lat lon ->
  qnorm2 (n_Qbn (s_nav s)) = 1 -> n_Cbn (s_nav s) = quaternion_to_dcm (n_Qbn (s_nav s)) ->
  exists t, feedback s x = Some t /\
    n_pos (s_nav t) = V lat lon (h + vz (x_pos x)) /\ n_vn (s_nav t) = vsub (n_vn (s_nav s)) (x_vel x) /\
    n_Qbn (s_nav t) = n_Qbn (s_nav s) /\ n_Cbn (s_nav t) = n_Cbn (s_nav s) /\
    n_gb (s_nav t) = vadd (n_gb (s_nav s)) (x_gb x) /\ n_ab (s_nav t) = vadd (n_ab (s_nav s)) (x_ab x) /\
    n_dvn (s_nav t) = n_dvn (s_nav s) /\ n_Qne (s_nav t) = n_Qne (s_nav s) /\ n_Cne (s_nav t) = n_Cne (s_nav s) /\
    n_gs (s_nav t) = n_gs (s_nav s) /\ n_as (s_nav t) = n_as (s_nav s) /\
    s_dt t = s_dt s /\ s_acce_pre t = s_acce_pre s /\ s_gyro_pre t = s_gyro_pre s.
Proof.
  intros (X1 & X2 & X3) P Hp HQ Hu HC. unfold feedback. cbv zeta. rewrite Hp, (place_rates _ _ _ P), X1, X2, X3. cbn [vx vy vz].
  replace (V (0 / (RN lat + h)) (-0 / (RM lat + h)) (-0 * tan lat / (RN lat + h))) with vzero
    by (unfold vzero; f_equal; unfold Rdiv; ring).
  replace (vneg vzero) with vzero by (apply vec_ext; simpl; ring).
  replace (vadd vzero vzero) with vzero by (apply vec_ext; simpl; ring).
  rewrite rv_zero, qmul_one_r, qmul_one_l, HQ.
  rewrite (qnormalized_same (lla_to_qne lat lon)) by apply qne_unit.
  rewrite (qnormalized_same (n_Qbn _)) by exact Hu.
  rewrite (lla_opt_place _ _ _ P). cbn [bind fst snd].
  eexists. split; [reflexivity|]. simpl. rewrite HC.
  repeat split; try reflexivity.
  destruct (n_vn (s_nav s)), (x_vel x); apply vec_ext; simpl; ring.
Qed.

Lemma feedback_rest s lat lon h dt q a g d : at_rest s lat lon h dt q a g -> place_ok lat lon h -> qnorm2 q = 1 ->
  exists t, feedback s (Err (V 0 0 d) vzero vzero vzero vzero) = Some t /\ at_rest t lat lon (h + d) dt q a g /\
    s_acce_pre t = s_acce_pre s /\ s_gyro_pre t = s_gyro_pre s.
Proof.
  intros ((Hp & Hv & Hd & HQ & HB & HC & B1 & B2 & B3 & B4) & Ht & Hpre) P Hq.
  destruct (feedback_level s (Err (V 0 0 d) vzero vzero vzero vzero) lat lon h) as (t & F & T); try assumption.
  - unfold level_correction; simpl; auto.
  - rewrite HB; exact Hq.
  - rewrite HB; exact HC.
  - exists t. split; [exact F|]. simpl in T. destruct T as (T1 & T2 & T3 & T4 & T5 & T6 & T7 & T8 & T9 & T10 & T11 & T12 & T13 & T14).
    unfold at_rest, nav_rest. rewrite T1, T2, T3, T4, T5, T6, T7, T8, T10, T11, T12, T13, T14, Hv, B1, B2, B3, B4.
    replace (vsub vzero vzero) with vzero by (apply vec_ext; simpl; ring). rewrite vadd_zero_r.
    repeat split; try assumption; try reflexivity.
Qed.

Lemma sample_rest s lat lon h dt q time :
  qnorm2 q = 1 -> dt <> 0 -> place_ok lat lon h ->
  let a := mvec (mtrans (quaternion_to_dcm q)) (balanced lat h dt) in
  let g := rest_gyro (quaternion_to_dcm q) lat dt in
  at_rest s lat lon h dt q a g ->
  exists t, forward s (Imu time g a) = Some t /\ at_rest t lat lon h dt q a g /\ s_acce_pre t = a /\ s_gyro_pre t = g /\
    n_Cne (s_nav t) = lla_to_cne lat lon.
Proof.
  intros Hq Hdt P a g HR.
  destruct (forward_rest s lat lon h dt q (balanced lat h dt) 0 time Hq Hdt P) as (t & F & H).
  - replace (1 / 2 * (h - 0 / 2 * dt + h)) with h by field. exact P.
  - exact HR.
  - rewrite residual_balanced. apply vec_ext; simpl; ring.
  - fold a g in F, H. exists t. split; [exact F|].
    replace (h - 0 / 2 * dt) with h in H by (unfold Rdiv; ring). change (V 0 0 0) with vzero in H.
    unfold at_rest, nav_rest. destruct H as (H1 & H2 & H3 & H4 & H5 & H6 & H7 & H8 & H9 & H10 & H11 & H12 & H13).
    repeat split; try assumption. { right; split; assumption. }
    assert (K : n_Cne (s_nav t) = lla_to_cne (vx (n_pos (s_nav t))) (vy (n_pos (s_nav t)))).
    { clear -F. unfold forward in F. apply bind_some in F as (m & F & E). injection E as <-. unfold mechanise in F.
      apply bind_some in F as (s1 & _ & F). apply bind_some in F as (s2 & _ & F). apply bind_some in F as (s3 & F & E). injection E as <-.
      unfold position_update in F. apply bind_some in F as (ll & _ & F). apply bind_some in F as (w & _ & F). injection F as <-. reflexivity. }
    rewrite K, H1. reflexivity.
Qed.

(** a fix straight above *)
Lemma innovation_vertical s lat lon h k : n_pos (s_nav s) = V lat lon h -> n_Cne (s_nav s) = lla_to_cne lat lon ->
  pos_z s vzero (V lat lon k) = V 0 0 (k - h).
Proof.
  intros Hp HC. unfold pos_z. cbv zeta. rewrite Hp, HC, (xyz_height lat lon k h).
  assert (T := sin2_cos2 lat). assert (U := sin2_cos2 lon). unfold Rsqr in T, U.
  unfold up, lla_to_cne. destruct (n_Cbn (s_nav s)). apply vec_ext; simpl.
  - replace (cos lat) with (cos lat) by reflexivity.
    transitivity ((h - k) * (sin lat * cos lat * (1 - (sin lon * sin lon + cos lon * cos lon)))); [ring|rewrite U; ring].
  - ring.
  - transitivity (- (h - k) * (cos lat * cos lat * (sin lon * sin lon + cos lon * cos lon) + sin lat * sin lat)); [ring|].
    rewrite U. transitivity (- (h - k) * (sin lat * sin lat + cos lat * cos lat)); [ring|rewrite T; ring].
Qed.

(** divisions in the transition matrix *)
Lemma transfer_place s lat lon h gt at' : n_pos (s_nav s) = V lat lon h -> place_ok lat lon h -> gt <> 0 -> at' <> 0 ->
  transfer_defined s gt at' = true.
Proof.
  intros Hp (A & B & C) G T. unfold transfer_defined. cbv zeta. rewrite Hp. cbn [vx vz].
  destruct (radii lat) as (R1 & R2 & R3). assert (Z : forall x, x <> 0 -> is_zero x = false).
  { intros x N. unfold is_zero. destruct (Req_EM_T x 0); [contradiction|reflexivity]. }
  assert (M0 : 6000000 < RM lat) by lra. assert (N0 : 6000000 < RN lat) by lra.
  assert (S : 6000000 < sqrt (RM lat * RN lat)).
  { rewrite <- (sqrt_square 6000000) by lra. apply sqrt_lt_1_alt. nra. }
  rewrite !Z by (try assumption; lra). reflexivity.
Qed.

(** no motion: no innovation of the constraints *)
Lemma wheel_rest s o : n_vn (s_nav s) = vzero -> o_lb_wheel o = vzero -> wheel_velocity s o = vzero.
Proof.
  intros H L. unfold wheel_velocity. cbv zeta. rewrite H, L.
  match goal with |- vadd (mvec ?m vzero) (mvec ?c (cross ?w vzero)) = _ => destruct m, c, w end. apply vec_ext; simpl; ring.
Qed.
Lemma vsum_swap a b c : vsub (vadd a c) b = vadd (vsub a b) c.
Proof. destruct a, b, c; vring. Qed.
Lemma place_origin : place_ok 0 0 0.
Proof. assert (P := PI_RGT_0). unfold place_ok. lra. Qed.
Lemma real_hundredth : 1 / 100 <> 0. Proof. lra. Qed.
Lemma real_zeros : 0 * 0 = 0 /\ 2 * 0 * 0 / 3600 = 0. Proof. lra. Qed.
Lemma real_ones : 0 < 1 * 1 * 1. Proof. lra. Qed.
Lemma real_fifty : 0 + 1 * 1 / (1 * 1 + 1 * 1 * 1) * (100 - 0) = 50. Proof. field. Qed.
Lemma real_half_hundred : 1 * 1 / (1 * 1 + 1 * 1 * 1) * (100 - 0) <> 0. Proof. replace (1 * 1 / (1 * 1 + 1 * 1 * 1) * (100 - 0)) with 50 by field. lra. Qed.
Lemma place_fifty : place_ok 0 0 50.
Proof. assert (P := PI_RGT_0). unfold place_ok. lra. Qed.
Lemma rest_gyro_rate C lat dt : dt <> 0 -> vz (rest_gyro C lat dt) / dt = vz (mvec (mtrans C) (omega_ie_n lat)).
Proof. intros H. destruct C. unfold rest_gyro, earth_turn, omega_ie_n; simpl. field. exact H. Qed.
Lemma real_int_min : -2147483648 + (0 - 0) - 0 = -2147483648. Proof. ring. Qed.
