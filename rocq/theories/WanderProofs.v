(** Feeding back a small estimate at any state whose place is read from its position quaternion (C75-C77, C145). *)
From Coq Require Import Reals Lra Psatz List.
From Coquelicot Require Import Coquelicot.
From Verif Require Import RealMath EarthModel ConvertModel ConvertSpec ConvertProofs EarthProofs MathWrap SmoothModel
  InsModel InsProofs InsRest InsRest2 FusionBase FusionSpec JacobianSpec JacobianBase JacobianProofs JacobianMain WanderSpec.
Import ListNotations.
Open Scope R_scope.

(** ** angles by half tangents *)
Lemma half_tan a : sin (2 * atan a) = 2 * a / (1 + a * a) /\ cos (2 * atan a) = (1 - a * a) / (1 + a * a).
Proof.
  assert (P : 0 < 1 + a * a) by nra. assert (S := sqrt_lt_R0 _ P). assert (X := sqrt_sqrt _ (Rlt_le _ _ P)).
  rewrite sin_2a, cos_2a, sin_atan, cos_atan. unfold Rsqr. set (n := sqrt (1 + a * a)) in *. rewrite <- X. split; field_simplify_eq; try lra.
Qed.
Lemma lat_half q : let a := qy q / qw q in
  sin (lat_of q) = - ((1 - a * a) / (1 + a * a)) /\ cos (lat_of q) = - (2 * a / (1 + a * a)).
Proof.
  intros a. destruct (half_tan a) as [S C]. unfold lat_of. fold a.
  replace (- (1 / 2) * PI + -2 * atan a) with (- (PI / 2 + 2 * atan a)) by field.
  rewrite sin_neg, cos_neg, sin_plus, cos_plus, sin_PI2, cos_PI2, S, C. split; ring.
Qed.
Lemma lon_half q : let b := qz q / qw q in
  sin (lon_of q) = 2 * b / (1 + b * b) /\ cos (lon_of q) = (1 - b * b) / (1 + b * b).
Proof. intros b. apply half_tan. Qed.

(** ** reading the place *)
Definition same_angle (a b : R) : Prop := sin a = sin b /\ cos a = cos b.
Lemma read_place q : qw q <> 0 -> 0 < qnorm2 q -> exists lo,
  lla_opt (qnormalized q) = Some (lat_of q, lo) /\ same_angle lo (lon_of q).
Proof.
  intros W N. assert (S := sqrt_lt_R0 _ N).
  unfold lla_opt, qne_to_lla, qnormalized. cbv zeta. destruct (Rlt_dec 0 (qnorm2 q)); [|lra]. cbn [qw qx qy qz].
  set (n := sqrt (qnorm2 q)) in *.
  assert (P : qw q / n <> 0) by (intro Z; apply W; apply (Rmult_eq_reg_r (/ n)); [|apply Rinv_neq_0_compat; lra]; unfold Rdiv in Z; rewrite Z; ring).
  unfold xdiv. destruct (Req_EM_T (qw q / n) 0); [lra|]. simpl.
  replace (qy q / n / (qw q / n)) with (qy q / qw q) by (field; lra).
  eexists. split; [reflexivity|]. unfold atan2, lon_of. replace (qz q / n / (qw q / n)) with (qz q / qw q) by (field; lra).
  unfold same_angle. destruct (Rlt_dec 0 (qw q / n)); [auto|]. destruct (Rlt_dec (qw q / n) 0); [|lra].
  destruct (Rle_dec 0 (qz q / n)).
  - replace (2 * (atan (qz q / qw q) + PI)) with (2 * atan (qz q / qw q) + 2 * PI) by ring. rewrite sin_plus, cos_plus, sin_2PI, cos_2PI. split; ring.
  - replace (2 * (atan (qz q / qw q) - PI)) with (2 * atan (qz q / qw q) - 2 * PI) by ring. rewrite sin_minus, cos_minus, sin_2PI, cos_2PI. split; ring.
Qed.
Lemma read_some q lat lon : lla_opt q = Some (lat, lon) -> qnorm2 q = 1 -> cos lat <> 0 ->
  qw q <> 0 /\ lat = lat_of q /\ same_angle lon (lon_of q).
Proof.
  intros H U C.
  assert (W : qw q <> 0).
  { intro Z. unfold lla_opt, qne_to_lla in H. cbv zeta in H. unfold xdiv in H. rewrite Z in H. destruct (Req_EM_T 0 0); [|lra].
    simpl in H. destruct (Rlt_dec 0 (qy q)); [|destruct (Rlt_dec (qy q) 0); [|discriminate]]; simpl in H; injection H as H _; apply C; rewrite <- H.
    - replace (- (1 / 2) * PI + -2 * (PI / 2)) with (- (PI + PI / 2)) by field. rewrite cos_neg, cos_plus, cos_PI2, sin_PI. ring.
    - replace (- (1 / 2) * PI + -2 * - (PI / 2)) with (PI / 2) by field. apply cos_PI2. }
  destruct (read_place q W ltac:(lra)) as (lo & E & A). rewrite qnormalized_id in E by exact U. rewrite E in H. injection H as <- <-. auto.
Qed.

(** ** derivatives of latitude and longitude along a small turn *)
Definition spun (q : quat) (d : vec) (e : R) : quat := qmul q (rvs (vneg d) e).
Lemma spun_0 q d : spun q d 0 = q.
Proof. unfold spun, rvs. destruct q, d. apply quat_ext; simpl; field. Qed.
Lemma spun_w q d : is_derive (fun e => qw (spun q d e)) 0 ((qx q * vx d + qy q * vy d + qz q * vz d) / 2).
Proof. unfold spun. destruct q as [w x y z], d as [a b c]. unfold rvs, dot. simpl. der. field. Qed.
Lemma spun_x q d : is_derive (fun e => qx (spun q d e)) 0 (- (qw q * vx d + qy q * vz d - qz q * vy d) / 2).
Proof. unfold spun. destruct q as [w x y z], d as [a b c]. unfold rvs, dot. simpl. der. field. Qed.
Lemma spun_y q d : is_derive (fun e => qy (spun q d e)) 0 (- (qw q * vy d + qz q * vx d - qx q * vz d) / 2).
Proof. unfold spun. destruct q as [w x y z], d as [a b c]. unfold rvs, dot. simpl. der. field. Qed.
Lemma spun_z q d : is_derive (fun e => qz (spun q d e)) 0 (- (qw q * vz d + qx q * vy d - qy q * vx d) / 2).
Proof. unfold spun. destruct q as [w x y z], d as [a b c]. unfold rvs, dot. simpl. der. field. Qed.

Lemma spun_place q d : qw q <> 0 -> let lat := lat_of q in let lon := lon_of q in cos lat <> 0 -> vz d = - vx d * tan lat ->
  is_derive (fun e => lat_of (spun q d e)) 0 (vy d - slip q * ((1 - sin lat) / (2 * cos lat)) * vx d) /\
  is_derive (fun e => lon_of (spun q d e)) 0 (- vx d / cos lat - slip q * ((1 + cos lon) / 2 * vy d + sin lon / 2 * vx d)).
Proof.
  intros W lat lon C T.
  assert (W0 : qw (spun q d 0) <> 0) by (rewrite spun_0; exact W).
  assert (RY := ratio_derive _ _ _ _ (spun_y q d) (spun_w q d) W0). assert (RZ := ratio_derive _ _ _ _ (spun_z q d) (spun_w q d) W0).
  cbv beta in RY, RZ. rewrite spun_0 in RY, RZ.
  destruct (lat_half q) as [SL CL]. destruct (lon_half q) as [SO CO]. fold lat in SL, CL. fold lon in SO, CO.
  set (a := qy q / qw q) in *. set (b := qz q / qw q) in *.
  assert (Y : qy q = qw q * a) by (unfold a; field; exact W). assert (Z : qz q = qw q * b) by (unfold b; field; exact W).
  set (k := slip q) in *. assert (X : qx q = qw q * (k - a * b)) by (unfold k, slip, a, b; field; exact W).
  assert (A1 : 0 < 1 + a * a) by nra. assert (B1 : 0 < 1 + b * b) by nra.
  assert (A0 : a <> 0). { intro Z0. apply C. rewrite CL, Z0. field; repeat split; lra. }
  assert (T' : vz d = - vx d * ((1 - a * a) / (2 * a))). { rewrite T. unfold tan. rewrite SL, CL. field. repeat split; lra. }
  assert (W2 : 0 < qw q * qw q) by nra. clearbody a b k lat lon.
  split.
  - apply (is_derive_ext (fun e => - (1 / 2) * PI + -2 * atan (qy (spun q d e) / qw (spun q d e)))); [reflexivity|].
    evar_last. { apply @is_derive_plus; [apply @is_derive_const|]. apply is_derive_scal. exact RY. }
    unfold plus, zero, scal, mult; simpl. unfold mult; simpl. rewrite SL, CL, X, Y, Z, T'. field. repeat split; try lra; nra.
  - apply (is_derive_ext (fun e => 2 * atan (qz (spun q d e) / qw (spun q d e)))); [reflexivity|].
    evar_last. { apply is_derive_scal. exact RZ. }
    unfold plus, zero, scal, mult; simpl. unfold mult; simpl. rewrite CL, SO, CO, X, Y, Z, T'. field. repeat split; try lra; nra.
Qed.

(** the turn of the axes that belongs to the movement *)
Lemma spun_moves s x lat lon h : located s lat lon h ->
  let q := n_Qne (s_nav s) in let d := frame_turn lat h (x_pos x) in let u := frame_turn lat h (slipped s lat lon h (x_pos x)) in
  qw q <> 0 /\ lat_of q = lat /\ same_angle lon (lon_of q) /\
  is_derive (fun e => lat_of (spun q d e)) 0 (vy u) /\ is_derive (fun e => lon_of (spun q d e)) 0 (- vx u / cos lat).
Proof.
  intros (Hp & HL & HU & C & N & M & _) q d u. destruct (read_some _ _ _ HL HU C) as (W & L & (S1 & S2)).
  change (n_Qne (s_nav s)) with q in W, L, S1, S2.
  split; [exact W|]. split; [symmetry; exact L|]. split; [split; assumption|].
  assert (P := spun_place q d W). cbv zeta in P. rewrite <- L, <- S1, <- S2 in P. destruct (P C (frame_turn_z _ _ _)) as [P1 P2].
  split.
  - replace (vy u) with (vy d - slip q * ((1 - sin lat) / (2 * cos lat)) * vx d); [exact P1|].
    unfold u, d, slipped, slip_shift, frame_turn. fold q. cbn [vx vy vz vadd vscale]. field. repeat split; assumption.
  - replace (- vx u / cos lat) with (- vx d / cos lat - slip q * ((1 + cos lon) / 2 * vy d + sin lon / 2 * vx d)); [exact P2|].
    unfold u, d, slipped, slip_shift, frame_turn. fold q. cbn [vx vy vz vadd vscale]. field. repeat split; assumption.
Qed.
Lemma spun_nz q d : qw q <> 0 -> exists r, 0 < r /\ forall e, Rabs e < r -> qw (spun q d e) <> 0.
Proof.
  intros W. assert (DW := spun_w q d).
  assert (CT : continuous (fun e : R => qw (spun q d e)) 0). { apply (@ex_derive_continuous R_AbsRing R_NormedModule). eexists. exact DW. }
  assert (K : 0 < Rabs (qw (spun q d 0))) by (apply Rabs_pos_lt; rewrite spun_0; exact W).
  destruct (CT (fun y => y <> 0)) as [r H].
  - exists (mkposreal _ K). intros y Hy. unfold ball in Hy; simpl in Hy. unfold AbsRing_ball, abs, minus, plus, opp in Hy; simpl in Hy.
    intros ->. revert Hy. rewrite Rplus_0_l, Rabs_Ropp. apply Rlt_irrefl.
  - exists r. split; [apply cond_pos|]. intros e He. apply H. unfold ball; simpl. unfold AbsRing_ball, abs, minus, plus, opp; simpl.
    replace (e + - 0) with e by ring. exact He.
Qed.
Lemma rates_ok lat lon h : cos lat <> 0 -> RN lat + h <> 0 -> RM lat + h <> 0 -> rates_defined (V lat lon h) = true.
Proof.
  intros A B C. unfold rates_defined; simpl. destruct (Req_EM_T (cos lat) 0); [contradiction|].
  destruct (Req_EM_T (RN lat + h) 0); [contradiction|]. destruct (Req_EM_T (RM lat + h) 0); [contradiction|]. reflexivity.
Qed.

Lemma feedback_near s x lat lon h : located s lat lon h ->
  let q := n_Qne (s_nav s) in let d := frame_turn lat h (x_pos x) in
  exists r, 0 < r /\ forall e, Rabs e < r -> exists t lo, feedback s (err_scale e x) = Some t /\
    n_pos (s_nav t) = V (lat_of (spun q d e)) lo (h + e * vz (x_pos x)) /\ same_angle lo (lon_of (spun q d e)) /\
    n_vn (s_nav t) = mvec (madd eye (skew (vscale e d))) (vsub (n_vn (s_nav s)) (vscale e (x_vel x))) /\
    n_Cbn (s_nav t) = mmul (turn (vadd (x_att x) d) e) (n_Cbn (s_nav s)) /\
    n_Cne (s_nav t) = n_Cne (s_nav s) /\ n_gb (s_nav t) = vadd (n_gb (s_nav s)) (vscale e (x_gb x)) /\
    s_gyro_pre t = s_gyro_pre s /\ s_wie t = s_wie s /\ s_wen t = s_wen s /\ s_dt t = s_dt s /\ n_Qne (s_nav t) = qnormalized (spun q d e).
Proof.
  intros (Hp & HL & HU & HCo & HN & HM & Hu & HC) q d. destruct (read_some _ _ _ HL HU HCo) as (W & _ & _).
  destruct (near_and _ _ (small_near (vneg d)) (near_and _ _ (small_near (vadd (x_att x) d)) (spun_nz q d W))) as (r & Hr & H).
  exists r. split; [exact Hr|]. intros e He. destruct (H e He) as (A & B & C).
  assert (NP : 0 < qnorm2 (spun q d e)).
  { unfold spun. rewrite qnorm2_mul. unfold q at 1. rewrite HU, Rmult_1_l, <- (rv_small _ _ A). apply rv_norm_pos. }
  destruct (read_place _ C NP) as (lo & E & SA).
  unfold feedback. cbv zeta. rewrite Hp, (rates_ok _ _ _ HCo HN HM). cbn [vx vy vz err_scale x_pos x_vel x_att x_gb x_ab].
  change (V (vy (vscale e (x_pos x)) / (RN lat + h)) (- vx (vscale e (x_pos x)) / (RM lat + h)) (- vy (vscale e (x_pos x)) * tan lat / (RN lat + h)))
    with (frame_turn lat h (vscale e (x_pos x))).
  rewrite frame_turn_scale. fold d.
  replace (vneg (vscale e d)) with (vscale e (vneg d)) by (destruct d; vring).
  rewrite (rv_small _ _ A). fold q. change (qmul q (rvs (vneg d) e)) with (spun q d e).
  rewrite E. cbn [bind fst snd].
  replace (vadd (vscale e (x_att x)) (vscale e d)) with (vscale e (vadd (x_att x) d)) by (destruct d, (x_att x); vring).
  rewrite normalized_mul by (try apply rv_norm_pos; assumption).
  eexists. exists lo. split; [reflexivity|].
  assert (T : quaternion_to_dcm (qmul (qnormalized (rv_to_quaternion (vscale e (vadd (x_att x) d)))) (n_Qbn (s_nav s))) =
    mmul (turn (vadd (x_att x) d) e) (n_Cbn (s_nav s))).
  { rewrite dcm_mul; [|apply qnormalized_unit, rv_norm_pos|exact Hu]. rewrite turn_dcm by exact B. rewrite HC. reflexivity. }
  cbn [s_nav n_pos n_vn n_Cbn n_Cne n_gb nav_bias nav_turn nav_vel nav_place s_gyro_pre s_wie s_wen s_dt n_Qne]. rewrite T.
  split; [reflexivity|]. split; [exact SA|]. repeat split; reflexivity.
Qed.

Lemma same_xyz la lo lo' h : same_angle lo lo' -> lla_to_xyz (V la lo h) = lla_to_xyz (V la lo' h).
Proof. intros [A B]. unfold lla_to_xyz. cbn [vx vy vz]. rewrite A, B. reflexivity. Qed.
Lemma same_cne la lo lo' : same_angle lo lo' -> lla_to_cne la lo = lla_to_cne la lo'.
Proof. intros [A B]. unfold lla_to_cne. rewrite A, B. reflexivity. Qed.
Lemma same_local la lo lo' v : same_angle lo lo' -> local_vector la lo v = local_vector la lo' v.
Proof. intros A. rewrite !local_cne, (same_cne _ _ _ A). reflexivity. Qed.

Lemma place_moves_any s x lat lon h : located s lat lon h ->
  moves (after s x earth_place) (earth_place s) (vneg (local_vector lat lon (slipped s lat lon h (x_pos x)))).
Proof.
  intros A. destruct (spun_moves s x lat lon h A) as (W & L0 & O0 & DL & DO).
  set (q := n_Qne (s_nav s)) in *. set (d := frame_turn lat h (x_pos x)) in *.
  assert (A' := A). destruct A' as (Hp & _ & _ & HCo & HN & HM & _).
  rewrite (same_local lat lon (lon_of q)) by exact O0.
  apply (moves_intro s x earth_place (fun e => lla_to_xyz (V (lat_of (spun q d e)) (lon_of (spun q d e)) (h + e * vz (x_pos x))))).
  - destruct (feedback_near s x lat lon h A) as (r & Hr & H). exists r. split; [exact Hr|]. intros e He.
    destruct (H e He) as (t & lo & F & Tp & SA & _). exists t. split; [exact F|]. unfold earth_place. rewrite Tp. apply same_xyz, SA.
  - unfold earth_place. rewrite spun_0, L0, Hp, Rmult_0_l, Rplus_0_r. symmetry. apply same_xyz, O0.
  - assert (DH : is_derive (fun e : R => h + e * vz (x_pos x)) 0 (vz (x_pos x))) by (auto_derive; auto; ring).
    assert (H0 : h + 0 * vz (x_pos x) = h) by ring.
    assert (L1 : lat_of (spun q d 0) = lat) by (rewrite spun_0; exact L0). assert (O1 : lon_of (spun q d 0) = lon_of q) by (rewrite spun_0; reflexivity).
    assert (X := xyz_derive _ _ _ _ _ _ lat (lon_of q) h DL DO DH L1 O1 H0). cbv zeta in X.
    set (y := slipped s lat lon h (x_pos x)) in *. set (u := frame_turn lat h y) in *.
    replace (vneg (local_vector lat (lon_of q) y)) with
      (vadd (vscale (vy u * (RM lat + h)) (north lat (lon_of q))) (vadd (vscale (- vx u / cos lat * (RN lat + h) * cos lat) (east lat (lon_of q))) (vscale (vz (x_pos x)) (up lat (lon_of q))))).
    + exact X.
    + replace (vz (x_pos x)) with (vz y) by (unfold y, slipped, slip_shift; simpl; ring).
      replace (vy u * (RM lat + h)) with (- vx y) by (unfold u, frame_turn; simpl; field; repeat split; assumption).
      replace (- vx u / cos lat * (RN lat + h) * cos lat) with (- vy y) by (unfold u, frame_turn; simpl; field; repeat split; assumption).
      unfold local_vector. apply vec_ext; simpl; ring.
Qed.

Lemma cne_moves_any s x lat lon h (f : ins -> vec) (p : R -> vec) p0 dp : located s lat lon h ->
  let d := frame_turn lat h (x_pos x) in let u := frame_turn lat h (slipped s lat lon h (x_pos x)) in
  (forall t e, feedback s (err_scale e x) = Some t ->
    n_vn (s_nav t) = mvec (madd eye (skew (vscale e d))) (vsub (n_vn (s_nav s)) (vscale e (x_vel x))) ->
    n_Cbn (s_nav t) = mmul (turn (vadd (x_att x) d) e) (n_Cbn (s_nav s)) -> f t = p e) ->
  f s = p 0 -> p 0 = p0 -> vdiff p dp ->
  moves (after s x (fun t => to_earth t (f t))) (to_earth s (f s)) (local_vector lat lon (vsub dp (cross u p0))).
Proof.
  intros A d u Hf Hs Hp0 Hd. destruct (spun_moves s x lat lon h A) as (W & L0 & O0 & DL & DO).
  set (q := n_Qne (s_nav s)) in *. fold d in DL, DO. fold u in DL, DO.
  assert (A' := A). destruct A' as (Hp & _ & _ & HCo & HN & HM & _).
  rewrite (same_local lat lon (lon_of q)) by exact O0.
  apply (moves_intro s x (fun t => to_earth t (f t)) (fun e => mvec (lla_to_cne (lat_of (spun q d e)) (lon_of (spun q d e))) (p e))).
  - destruct (feedback_near s x lat lon h A) as (r & Hr & H). exists r. split; [exact Hr|]. intros e He.
    destruct (H e He) as (t & lo & F & Tp & SA & Tv & Tc & _). exists t. split; [exact F|]. unfold to_earth.
    rewrite Tp, (Hf t e F Tv Tc). cbn [vx vy vz]. rewrite (same_cne _ _ _ SA). reflexivity.
  - unfold to_earth. rewrite spun_0, L0, Hp, Hs. cbn [vx vy vz]. rewrite (same_cne _ _ _ O0). reflexivity.
  - rewrite local_cne.
    assert (L1 : lat_of (spun q d 0) = lat) by (rewrite spun_0; exact L0). assert (O1 : lon_of (spun q d 0) = lon_of q) by (rewrite spun_0; reflexivity).
    apply cne_vec; try assumption. apply frame_turn_z.
Qed.

Lemma velocity_moves_any s x lat lon h : located s lat lon h ->
  moves (after s x earth_velocity) (earth_velocity s)
    (vneg (local_vector lat lon (vadd (x_vel x)
      (vscale (slip (n_Qne (s_nav s))) (cross (frame_turn lat h (slip_shift lat lon h (x_pos x))) (n_vn (s_nav s))))))).
Proof.
  intros A. set (d := frame_turn lat h (x_pos x)). set (u := frame_turn lat h (slipped s lat lon h (x_pos x))).
  set (k := slip _). set (g := frame_turn lat h (slip_shift _ _ _ _)).
  assert (U : u = vadd d (vscale k g)).
  { unfold u, d, g, slipped, frame_turn. fold k. destruct (x_pos x). apply vec_ext; simpl; unfold Rdiv; ring. }
  replace (vneg (local_vector lat lon _)) with
    (local_vector lat lon (vsub (vsub (cross d (n_vn (s_nav s))) (x_vel x)) (cross u (n_vn (s_nav s)))))
    by (rewrite U, !local_cne; destruct d, g, (n_vn (s_nav s)), (x_vel x); apply vec_ext; simpl; ring).
  apply (cne_moves_any s x lat lon h (fun t => n_vn (s_nav t)) (fun e => mvec (madd eye (skew (vscale e d))) (vsub (n_vn (s_nav s)) (vscale e (x_vel x))))); try assumption.
  - intros t e _ Tv _. exact Tv.
  - symmetry. apply vn_start.
  - apply vn_start.
  - apply vn_moves.
Qed.
Lemma direction_moves_any s x lat lon h v : located s lat lon h ->
  moves (after s x (earth_direction v)) (earth_direction v s)
    (local_vector lat lon (cross (vsub (x_att x) (vscale (slip (n_Qne (s_nav s))) (frame_turn lat h (slip_shift lat lon h (x_pos x))))) (mvec (n_Cbn (s_nav s)) v))).
Proof.
  intros A. set (d := frame_turn lat h (x_pos x)). set (w := mvec (n_Cbn (s_nav s)) v).
  set (u := frame_turn lat h (slipped s lat lon h (x_pos x))). set (k := slip _). set (g := frame_turn lat h (slip_shift _ _ _ _)).
  assert (U : u = vadd d (vscale k g)).
  { unfold u, d, g, slipped, frame_turn. fold k. destruct (x_pos x). apply vec_ext; simpl; unfold Rdiv; ring. }
  replace (cross (vsub (x_att x) (vscale k g)) w) with (vsub (vadd (cross (vadd (x_att x) d) w) vzero) (cross u w))
    by (rewrite U; destruct d, g, w, (x_att x); vring).
  apply (cne_moves_any s x lat lon h (fun t => mvec (n_Cbn (s_nav t)) v) (fun e => mvec (turn (vadd (x_att x) d) e) w)); try assumption.
  - intros t e _ _ Tc. rewrite Tc, mvec_mmul. reflexivity.
  - rewrite turn_zero, mvec_eye. reflexivity.
  - rewrite turn_zero, mvec_eye. reflexivity.
  - apply (turn_vec _ (fun _ => w) w); [apply vdiff_const|reflexivity].
Qed.
