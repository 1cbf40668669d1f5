(** The tilt after one correction, and a state with slip (C75, C76, C145). *)
From Coq Require Import Reals Lra Psatz List.
From Coquelicot Require Import Coquelicot.
From Verif Require Import RealMath EarthModel ConvertModel ConvertSpec ConvertProofs EarthProofs MathWrap SmoothModel
  InsModel InsProofs InsRest InsRest2 FusionBase FusionSpec JacobianSpec JacobianBase JacobianProofs JacobianMain WanderSpec WanderProofs WanderMain.
Import ListNotations.
Open Scope R_scope.

(** size of the library's turn quaternion *)
Lemma rv_parts v : exists w k, rv_to_quaternion v = Q w (k * vx v) (k * vy v) (k * vz v) /\ 4 * (k * k) <= qnorm2 (rv_to_quaternion v).
Proof.
  unfold rv_to_quaternion. cbv zeta. set (m2 := vx v * vx v + vy v * vy v + vz v * vz v).
  assert (M0 : 0 <= m2) by (unfold m2; nra). assert (P3 := PI_gt_3).
  destruct (Rlt_dec m2 (PI * PI)) as [L|L].
  - set (m := m2 * (1 / 4)). assert (PL := PI_lt). assert (Hm : 0 <= m) by (unfold m; lra). assert (Hm' : m < 5 / 2) by (unfold m; nra).
    set (cs := 1 - m / 2 * (1 - m / 12 * (1 - m / 30))). set (sn := 1 - m / 6 * (1 - m / 20 * (1 - m / 42))).
    exists cs, (1 / 2 * sn). split; [reflexivity|]. unfold qnorm2. cbn [qw qx qy qz].
    replace (cs * cs + 1 / 2 * sn * vx v * (1 / 2 * sn * vx v) + 1 / 2 * sn * vy v * (1 / 2 * sn * vy v) + 1 / 2 * sn * vz v * (1 / 2 * sn * vz v))
      with (cs * cs + m * (sn * sn)) by (unfold m, m2; field).
    replace (4 * (1 / 2 * sn * (1 / 2 * sn))) with (sn * sn) by field.
    assert (S2 : 0 <= sn * sn) by nra. destruct (Rle_dec 1 m) as [G|G].
    + assert (sn * sn <= m * (sn * sn)) by nra. assert (0 <= cs * cs) by nra. lra.
    + assert (C1 : 1 - m / 2 <= cs). { unfold cs. assert (0 <= m / 12 * (1 - m / 30)) by nra. nra. }
      assert (N0 : 0 <= m / 20 * (1 - m / 42) <= 1) by (split; nra).
      assert (S1 : 0 <= sn <= 1). { unfold sn. split; nra. }
      assert (sn * sn <= 1) by nra. assert ((1 - m / 2) * (1 - m / 2) <= cs * cs) by nra. nra.
  - assert (Mp : 9 < m2) by nra. assert (R3 : 3 < sqrt m2). { rewrite <- (sqrt_square 3) by lra. apply sqrt_lt_1; lra. }
    set (g := sqrt m2) in *. assert (G2 : g * g = m2) by (apply sqrt_sqrt; exact M0). assert (SC := sin2_cos2 (g / 2)). unfold Rsqr in SC.
    assert (U : 4 * (sin (g / 2) / g * (sin (g / 2) / g)) <= 1).
    { replace (4 * (sin (g / 2) / g * (sin (g / 2) / g))) with (4 * (sin (g / 2) * sin (g / 2)) / (g * g)) by (field; lra).
      apply (Rmult_le_reg_r (g * g)); [nra|]. unfold Rdiv. rewrite Rmult_assoc, Rinv_l, Rmult_1_r by nra. nra. }
    assert (N : forall a, a * a = 1 -> cos (g / 2) * cos (g / 2) + (a * (sin (g / 2) / g)) * (a * (sin (g / 2) / g)) * m2 = 1).
    { intros a Ha. replace (a * (sin (g / 2) / g) * (a * (sin (g / 2) / g)) * m2) with (a * a * (sin (g / 2) * sin (g / 2)) * (m2 / (g * g))) by (field; lra).
      rewrite Ha, G2. replace (m2 / m2) with 1 by (field; lra). lra. }
    destruct (Rlt_dec (cos (g / 2)) 0).
    + exists (- cos (g / 2)), (- (sin (g / 2) / g)). split. { f_equal; field; lra. }
      unfold qnorm2. cbn [qw qx qy qz].
      replace (- cos (g / 2) * - cos (g / 2) + - vx v * sin (g / 2) / g * (- vx v * sin (g / 2) / g) + - vy v * sin (g / 2) / g * (- vy v * sin (g / 2) / g) + - vz v * sin (g / 2) / g * (- vz v * sin (g / 2) / g))
        with (cos (g / 2) * cos (g / 2) + -1 * (sin (g / 2) / g) * (-1 * (sin (g / 2) / g)) * m2) by (unfold m2; field; lra).
      rewrite N by ring. lra.
    + exists (cos (g / 2)), (sin (g / 2) / g). split. { f_equal; field; lra. }
      unfold qnorm2. cbn [qw qx qy qz].
      replace (cos (g / 2) * cos (g / 2) + vx v * sin (g / 2) / g * (vx v * sin (g / 2) / g) + vy v * sin (g / 2) / g * (vy v * sin (g / 2) / g) + vz v * sin (g / 2) / g * (vz v * sin (g / 2) / g))
        with (cos (g / 2) * cos (g / 2) + 1 * (sin (g / 2) / g) * (1 * (sin (g / 2) / g)) * m2) by (unfold m2; field; lra).
      rewrite N by ring. lra.
Qed.

(** the quaternion of a place, turned: how far the east axis leaves the plane of the equator *)
Lemma turned_tilt lat lon v : cos lat <> 0 -> vz v = - vx v * tan lat ->
  exists c, 0 <= c <= 1 / 2 /\ m21 (quaternion_to_dcm (qnormalized (qmul (lla_to_qne lat lon) (rv_to_quaternion v)))) = c * (vx v * vy v / cos lat).
Proof.
  intros C T. destruct (rv_parts v) as (w & k & E & K). assert (NP := rv_norm_pos v). set (n := qnorm2 (rv_to_quaternion v)) in *.
  exists (2 * (k * k) / n). split.
  { split; [apply Rle_mult_inv_pos; [nra|exact NP]|]. apply (Rmult_le_reg_r n); [exact NP|]. unfold Rdiv. rewrite Rmult_assoc, Rinv_l, Rmult_1_r by lra. lra. }
  assert (U := qne_unit lat lon).
  assert (NQ : qnorm2 (qmul (lla_to_qne lat lon) (rv_to_quaternion v)) = n) by (rewrite qnorm2_mul, U; unfold n; ring).
  rewrite dcm_normalized by (rewrite NQ; exact NP). rewrite NQ. cbn [m21].
  rewrite E. unfold lla_to_qne. cbn [qmul qw qx qy qz].
  set (p := - (1 / 4) * PI - 1 / 2 * lat). set (l := 1 / 2 * lon). assert (S1 := sin2_cos2 p). assert (S2 := sin2_cos2 l). unfold Rsqr in S1, S2.
  assert (E1 : sin lat = - (cos p * cos p - sin p * sin p)).
  { rewrite <- cos_2a. unfold p. replace (2 * (- (1 / 4) * PI - 1 / 2 * lat)) with (- (PI / 2 + lat)) by field.
    rewrite cos_neg, cos_plus, cos_PI2, sin_PI2. ring. }
  assert (E2 : cos lat = - (2 * sin p * cos p)).
  { rewrite <- sin_2a. unfold p. replace (2 * (- (1 / 4) * PI - 1 / 2 * lat)) with (- (PI / 2 + lat)) by field.
    rewrite sin_neg, sin_plus, cos_PI2, sin_PI2. ring. }
  unfold tan in T. assert (T' : vz v * cos lat = - vx v * sin lat) by (rewrite T; field; exact C).
  apply (Rmult_eq_reg_r (n * cos lat)); [|apply Rmult_integral_contrapositive; split; lra].
  transitivity (2 * (k * k) * (vx v * vy v)); [|field; lra].
  match goal with |- 2 * ?A / n * (n * cos lat) = _ => transitivity (2 * (A * cos lat)); [field; lra|]; set (a := A) end.
  assert (Ha : a = (sin l * sin l + cos l * cos l) * k * ((sin p * sin p + cos p * cos p) * 0
     + w * vz v * (2 * sin p * cos p) + w * vx v * (cos p * cos p - sin p * sin p)
     + k * vy v * vz v * (cos p * cos p - sin p * sin p) - k * vx v * vy v * (2 * sin p * cos p))).
  { unfold a. ring. }
  rewrite Ha, S2.
  replace (2 * sin p * cos p) with (- cos lat) by lra. replace (cos p * cos p - sin p * sin p) with (- sin lat) by lra.
  assert (TT := sin2_cos2 lat). unfold Rsqr in TT.
  transitivity (2 * (k * (- w * cos lat * (vz v * cos lat + vx v * sin lat) - k * vy v * sin lat * (vz v * cos lat) + k * vx v * vy v * (cos lat * cos lat)))); [ring|].
  rewrite T'. replace (cos lat * cos lat) with (1 - sin lat * sin lat) by lra. ring.
Qed.

Lemma one_correction s x t lat lon h : agrees s lat lon h -> feedback s x = Some t ->
  Rabs (m21 (quaternion_to_dcm (n_Qne (s_nav t)))) <= Rabs (vx (x_pos x) * vy (x_pos x)) / (2 * (RM lat + h) * (RN lat + h) * cos lat).
Proof.
  intros (P & Hp & HQ & _) F. destruct (half_angles _ _ _ P) as (_ & _ & Hc). assert (Rd := radii lat). destruct P as (_ & _ & Hh).
  unfold feedback in F. cbv zeta in F. rewrite Hp in F. cbn [vx vy vz] in F. destruct (rates_defined _); [|discriminate].
  apply bind_some in F as (l & _ & F). injection F as <-. cbn [s_nav nav_bias nav_turn nav_vel nav_place n_Qne]. rewrite HQ.
  change (V (vy (x_pos x) / (RN lat + h)) (- vx (x_pos x) / (RM lat + h)) (- vy (x_pos x) * tan lat / (RN lat + h))) with (frame_turn lat h (x_pos x)).
  set (d := frame_turn lat h (x_pos x)).
  destruct (turned_tilt lat lon (vneg d)) as (c & Hb & E); [lra| |].
  { assert (Z := frame_turn_z lat h (x_pos x)). fold d in Z. change (- vz d = - - vx d * tan lat); rewrite Z. ring. }
  rewrite E. replace (vx (vneg d) * vy (vneg d) / cos lat) with (- (vx (x_pos x) * vy (x_pos x)) / ((RM lat + h) * (RN lat + h) * cos lat))
    by (unfold d, frame_turn; simpl; field; repeat split; lra).
  set (y := vx (x_pos x) * vy (x_pos x)). assert (K : 0 < (RM lat + h) * (RN lat + h) * cos lat) by (apply Rmult_lt_0_compat; [apply Rmult_lt_0_compat; lra|exact Hc]).
  set (g := (RM lat + h) * (RN lat + h) * cos lat) in *.
  replace (2 * (RM lat + h) * (RN lat + h) * cos lat) with (2 * g) by (unfold g; ring).
  replace (c * (- y / g)) with (- (c * (y / g))) by (field; lra). rewrite Rabs_Ropp, Rabs_mult, (Rabs_right c) by lra.
  unfold Rdiv at 1. rewrite Rabs_mult, (Rabs_right (/ g)) by (apply Rle_ge, Rlt_le, Rinv_0_lt_compat; exact K).
  replace (Rabs y / (2 * g)) with (1 / 2 * (Rabs y * / g)) by (field; lra).
  apply Rmult_le_compat_r; [|lra]. apply Rmult_le_pos; [apply Rabs_pos|apply Rlt_le, Rinv_0_lt_compat; exact K].
Qed.
Lemma tilt_slip q : qnorm2 q = 1 -> qw q <> 0 -> m21 (quaternion_to_dcm q) = 2 * (qw q * qw q) * slip q.
Proof. intros U W. unfold quaternion_to_dcm, slip. cbn [m21]. field. exact W. Qed.

(** ** derivatives are unique *)
Lemma moves_unique f v0 a b : moves f v0 a -> moves f v0 b -> a = b.
Proof.
  intros (g & (r & Hr & G) & _ & (D1 & D2 & D3)) (k & (p & Hp & K) & _ & (E1 & E2 & E3)).
  assert (S : forall e, Rabs e < Rmin r p -> g e = k e).
  { intros e He. assert (A := G e (Rlt_le_trans _ _ _ He (Rmin_l _ _))). rewrite (K e (Rlt_le_trans _ _ _ He (Rmin_r _ _))) in A. injection A as A. auto. }
  assert (M : 0 < Rmin r p) by (apply Rmin_pos; assumption).
  assert (L : forall (c : vec -> R) x y, derivable_pt_lim (fun e => c (g e)) 0 x -> derivable_pt_lim (fun e => c (k e)) 0 y -> x = y).
  { intros c x y X Y. apply is_derive_Reals in X. apply is_derive_Reals in Y.
    assert (Z : is_derive (fun e => c (k e)) 0 x).
    { apply (is_derive_ext_loc (fun e => c (g e))); [|exact X]. exists (mkposreal _ M). intros e He.
      unfold ball in He; simpl in He. unfold AbsRing_ball, abs, minus, plus, opp in He; simpl in He.
      assert (He' : Rabs e < Rmin r p) by (replace (Rabs e) with (Rabs (e + - 0)); [exact He|f_equal; change (@eq R (e + -0) e); ring]).
      rewrite (S e He'). reflexivity. }
    rewrite <- (is_derive_unique _ _ _ Z). apply is_derive_unique, Y. }
  apply vec_ext; [apply (L vx)|apply (L vy)|apply (L vz)]; assumption.
Qed.
(** with a slip, a correction to the north also moves the place east *)
Lemma slip_spoils s lat lon h x : located s lat lon h -> slip (n_Qne (s_nav s)) <> 0 -> x_pos x = V 1 0 0 ->
  ~ moves (after s x earth_place) (earth_place s) (vneg (local_vector lat lon (x_pos x))).
Proof.
  intros A K X H. assert (B := place_moves_any s x lat lon h A). assert (E := moves_unique _ _ _ _ H B).
  destruct (spun_moves s x lat lon h A) as (W & _ & (_ & CO) & _). destruct A as (_ & _ & _ & C & N & M & _).
  assert (E' : slipped s lat lon h (x_pos x) = x_pos x).
  { rewrite !local_cne in E. apply (f_equal vneg) in E.
    assert (VN : forall v, vneg (vneg v) = v) by (intros [? ? ?]; apply vec_ext; simpl; ring). rewrite !VN in E.
    apply (f_equal (mvec (mtrans (lla_to_cne lat lon)))) in E. rewrite !cne_undo in E. auto. }
  rewrite X in E'. unfold slipped, slip_shift in E'. apply (f_equal vy) in E'. cbn [vx vy vz vadd vscale] in E'.
  assert (CO1 : 1 + cos lon <> 0).
  { rewrite CO. destruct (lon_half (n_Qne (s_nav s))) as [_ ->]. set (b := qz (n_Qne (s_nav s)) / qw (n_Qne (s_nav s))). assert (0 < 1 + b * b) by nra.
    replace (1 + (1 - b * b) / (1 + b * b)) with (2 / (1 + b * b)) by (field; lra). apply Rgt_not_eq, Rdiv_lt_0_compat; lra. }
  assert (Z : slip (n_Qne (s_nav s)) * (cos lat * (1 + cos lon) * (RN lat + h)) = 0).
  { apply (Rmult_eq_reg_r (/ (2 * (RM lat + h)))); [|apply Rinv_neq_0_compat; lra].
    transitivity (- (0 + slip (n_Qne (s_nav s)) * (cos lat * (sin lon / 2 * 0 - (1 + cos lon) / 2 * ((RN lat + h) / (RM lat + h)) * 1)))); [field; assumption|].
    rewrite E'. ring. }
  apply Rmult_integral in Z as [Z|Z]; [contradiction|]. apply Rmult_integral in Z as [Z|Z]; [|contradiction].
  apply Rmult_integral in Z as [Z|Z]; contradiction.
Qed.

(** a state with slip, reached by one correction *)
Definition far_correction : err := Err (V (RM 0) (RN 0) 0) vzero vzero vzero vzero.
Lemma slip_case s0 gpst vn atti rate : exists t,
  ins_run (init_pva s0 (make_nav gpst (V 0 0 0) vn atti) rate) [OpCorrect far_correction] = Some t /\
  located t (vx (n_pos (s_nav t))) (vy (n_pos (s_nav t))) (vz (n_pos (s_nav t))) /\ slip (n_Qne (s_nav t)) <> 0.
Proof.
  assert (P3 := PI_gt_3). assert (Rd := radii 0).
  assert (P : place_ok 0 0 0) by (unfold place_ok; lra).
  set (s := init_pva s0 (make_nav gpst (V 0 0 0) vn atti) rate).
  assert (HQ : n_Qne (s_nav s) = lla_to_qne 0 0) by reflexivity. assert (Hp : n_pos (s_nav s) = V 0 0 0) by reflexivity.
  set (m := 2 * (1 / 4)). set (cs := 1 - m / 2 * (1 - m / 12 * (1 - m / 30))). set (sn := 1 - m / 6 * (1 - m / 20 * (1 - m / 42))).
  assert (ER : rv_to_quaternion (V (-1) 1 0) = Q cs (- (sn / 2)) (sn / 2) 0).
  { unfold rv_to_quaternion. cbv zeta. cbn [vx vy vz]. replace (-1 * -1 + 1 * 1 + 0 * 0) with 2 by ring.
    destruct (Rlt_dec 2 (PI * PI)); [|nra]. fold m. fold cs sn. f_equal; field. }
  assert (Sb : 9 / 10 < sn < 1) by (unfold sn, m; lra). assert (Cb : 7 / 10 < cs < 8 / 10) by (unfold cs, m; lra).
  assert (EQ : qmul (lla_to_qne 0 0) (rv_to_quaternion (V (-1) 1 0)) =
     let c := cos (PI / 4) in Q (c * (cs + sn / 2)) (c * - (sn / 2)) (c * (sn / 2 - cs)) (c * - (sn / 2))).
  { rewrite ER. unfold lla_to_qne. replace (- (1 / 4) * PI - 1 / 2 * 0) with (- (PI / 4)) by field. replace (1 / 2 * 0) with 0 by ring.
    rewrite sin_neg, cos_neg, sin_0, cos_0, sin_PI4, cos_PI4. apply quat_ext; cbn [qmul qw qx qy qz]; ring. }
  set (q := qmul (lla_to_qne 0 0) (rv_to_quaternion (V (-1) 1 0))) in *. cbv zeta in EQ.
  assert (C4 : 0 < cos (PI / 4)) by (apply cos_gt_0; lra).
  assert (W : 0 < qw q) by (rewrite EQ; cbn [qw]; apply Rmult_lt_0_compat; lra).
  assert (L := lla_opt_ratio q W). fold (lat_of q) in L. fold (lon_of q) in L.
  assert (F : exists t, feedback s far_correction = Some t /\ n_Qne (s_nav t) = qnormalized q /\ n_pos (s_nav t) = V (lat_of q) (lon_of q) 0).
  { unfold feedback. cbv zeta. rewrite Hp, (place_rates _ _ _ P), HQ. cbn [vx vy vz far_correction x_pos x_vel x_att x_gb x_ab].
    replace (V (RN 0 / (RN 0 + 0)) (- RM 0 / (RM 0 + 0)) (- RN 0 * tan 0 / (RN 0 + 0))) with (V 1 (-1) 0)
      by (rewrite tan_0; apply vec_ext; simpl; field; lra).
    replace (vneg (V 1 (-1) 0)) with (V (-1) 1 0) by (apply vec_ext; simpl; ring). fold q. rewrite L. cbn [bind fst snd].
    eexists. split; [reflexivity|]. cbn [s_nav nav_bias nav_turn nav_vel nav_place n_Qne n_pos]. split; [reflexivity|]. rewrite Rplus_0_r. reflexivity. }
  destruct F as (t & F & TQ & TP). exists t. split. { simpl. fold s. rewrite F. reflexivity. }
  assert (A : qy q / qw q <> 0).
  { rewrite EQ. cbn [qw qy]. replace (cos (PI / 4) * (sn / 2 - cs) / (cos (PI / 4) * (cs + sn / 2))) with ((sn / 2 - cs) / (cs + sn / 2)) by (field; lra).
    intro Z. apply (Rmult_eq_compat_r (cs + sn / 2)) in Z. unfold Rdiv in Z. rewrite Rmult_assoc, Rinv_l, Rmult_0_l in Z by lra. lra. }
  split.
  - apply reads_located.
    + apply (feedback_reads s far_correction t F); [rewrite HQ; apply qne_unit|apply make_nav_sound].
    + rewrite TP. assert (Rq := radii (lat_of q)). apply rates_ok; try lra.
      destruct (lat_half q) as [_ ->]. set (a := qy q / qw q) in *. intro Z. apply A.
      assert (0 < 1 + a * a) by nra. apply (f_equal (fun z => - z * (1 + a * a) / 2)) in Z.
      replace (- - (2 * a / (1 + a * a)) * (1 + a * a) / 2) with a in Z by (field; lra). rewrite Z. field.
  - rewrite TQ, slip_normalized, EQ. unfold slip. cbn [qw qx qy qz].
    replace ((cos (PI / 4) * (cs + sn / 2) * (cos (PI / 4) * - (sn / 2)) + cos (PI / 4) * (sn / 2 - cs) * (cos (PI / 4) * - (sn / 2))) /
      (cos (PI / 4) * (cs + sn / 2) * (cos (PI / 4) * (cs + sn / 2)))) with (- (sn * sn / 2 / ((cs + sn / 2) * (cs + sn / 2)))) by (field; lra).
    apply Rlt_not_eq, Ropp_lt_gt_0_contravar. apply Rdiv_lt_0_compat; nra.
Qed.
