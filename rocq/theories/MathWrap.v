(** Final forms of the lemmas on conversions and the earth model. *)
From Coq Require Import Reals Lra Psatz.
From Verif Require Import RealMath EarthModel ConvertModel ConvertSpec ConvertProofs EarthProofs.
Open Scope R_scope.

Lemma closed_branch v : PI <= vnorm v ->
  qnorm2 (rv_to_quaternion v) = 1 /\ 0 <= qw (rv_to_quaternion v) /\
  quaternion_to_dcm (rv_to_quaternion v) = quaternion_to_dcm (exact_quaternion v).
Proof.
  intros H. destruct (rv_closed v H) as [[E|E] W]; rewrite E in *; (split; [|split; [exact W|]]);
    rewrite ?qnorm2_neg, ?dcm_neg; auto using exact_unit.
Qed.
Lemma series_norm v : vnorm v < PI ->
  1 - (vnorm v / 2) ^ 8 / 20160 <= qnorm2 (rv_to_quaternion v) <= 1.
Proof.
  intros H. assert (S := rv_series_norm v H). cbv zeta in S.
  replace ((vnorm v * vnorm v / 4) ^ 4) with ((vnorm v / 2) ^ 8) in S by field. exact S.
Qed.
Lemma vnorm_axis a : 0 <= a -> vnorm (V a 0 0) = a.
Proof. intros. unfold vnorm, dot; simpl. replace (a * a + 0 * 0 + 0 * 0) with (a * a) by ring. apply sqrt_square; lra. Qed.
Lemma case_closed : PI <= vnorm (V 4 0 0).
Proof. rewrite vnorm_axis by lra. apply PI_4. Qed.
Lemma PI_gt_3 : 3 < PI.
Proof. assert (P := PI2_3_2). lra. Qed.
Lemma case_series : vnorm (V 1 0 0) < PI /\ (vnorm (V 1 0 0) / 2) ^ 8 / 20160 < 1 / 1000000.
Proof. rewrite vnorm_axis by lra. assert (P := PI_gt_3). split; [lra|]. simpl. lra. Qed.
Lemma case_dcm : qnorm2 (Q (1 / 2) (1 / 2) (- (1 / 2)) (1 / 2)) = 1 /\
  quaternion_to_dcm (Q (1 / 2) (1 / 2) (- (1 / 2)) (1 / 2)) = M 0 (-1) 0 0 0 (-1) 1 0 0.
Proof. split; [unfold qnorm2; simpl; lra|]. unfold quaternion_to_dcm; apply mat_ext; simpl; lra. Qed.

Lemma euler_direct roll pitch heading :
  euler_to_dcm (V roll pitch heading) = attitude roll pitch heading /\ rotation (attitude roll pitch heading).
Proof. split; [apply euler_dcm_attitude|apply attitude_rotation]. Qed.
Lemma euler_via_quaternion e :
  qnorm2 (euler_to_quaternion e) = 1 /\ quaternion_to_dcm (euler_to_quaternion e) = euler_to_dcm e.
Proof. split; [apply euler_quaternion_unit|apply euler_dcm_quaternion]. Qed.
Lemma euler_roundtrip_attitude roll pitch heading :
  - PI < roll <= PI -> - (PI / 2) < pitch < PI / 2 -> - PI < heading <= PI ->
  - (999 / 1000) < sin pitch < 999 / 1000 ->
  dcm_to_euler (attitude roll pitch heading) = Eu (Fin roll) (Fin pitch) heading.
Proof. intros. rewrite <- euler_dcm_attitude. apply euler_roundtrip; assumption. Qed.
Lemma euler_pitch_attitude roll pitch heading : - (PI / 2) <= pitch <= PI / 2 ->
  e_pitch (dcm_to_euler (attitude roll pitch heading)) = Fin pitch.
Proof. intros. rewrite <- euler_dcm_attitude. apply euler_pitch_roundtrip; assumption. Qed.
Lemma euler_not_number :
  ~ (forall roll pitch heading, exists r, e_roll (dcm_to_euler (attitude roll pitch heading)) = Fin r).
Proof.
  intros H. destruct (H 0 (PI / 2) 0) as [r E]. rewrite <- euler_dcm_attitude, euler_vertical_up in E.
  - discriminate.
  - assert (P := PI_RGT_0). lra.
Qed.
Lemma euler_down_lost :
  ~ (forall roll1 heading1 roll2 heading2,
       dcm_to_euler (attitude roll1 (- (PI / 2)) heading1) = dcm_to_euler (attitude roll2 (- (PI / 2)) heading2) ->
       attitude roll1 (- (PI / 2)) heading1 = attitude roll2 (- (PI / 2)) heading2).
Proof.
  intros H. assert (P := PI_RGT_0). assert (P3 := PI_gt_3). assert (P4 := PI_lt).
  specialize (H 0 1 0 2). rewrite <- !euler_dcm_attitude in H.
  assert (E : forall r h, 0 < sin (r + h) -> dcm_to_euler (euler_to_dcm (V r (- (PI / 2)) h)) = Eu NaN (Fin (- (PI / 2))) (PI / 2)).
  { intros r h S.
    assert (D := euler_vertical_down r h). assert (B := euler_pitch_roundtrip r (- (PI / 2)) h).
    assert (A : e_roll (dcm_to_euler (euler_to_dcm (V r (- (PI / 2)) h))) = NaN).
    { unfold dcm_to_euler, euler_to_dcm; cbv zeta; simpl. rewrite sin_neg, sin_PI2.
      destruct (Rle_dec (- - (1)) (- (999 / 1000))); [lra|].
      destruct (Rle_dec (999 / 1000) (- - (1))); [reflexivity|lra]. }
    destruct (dcm_to_euler (euler_to_dcm (V r (- (PI / 2)) h))) as [x y z]; simpl in *.
    rewrite A, B by lra. f_equal. rewrite D. unfold atan2.
    destruct (Rlt_dec 0 0); [lra|]. destruct (Rlt_dec 0 (-2 * sin (r + h))); [lra|].
    destruct (Rlt_dec (-2 * sin (r + h)) 0); lra. }
  assert (S1 : 0 < sin 1) by (apply sin_gt_0; lra). assert (S2 : 0 < sin 2) by (apply sin_gt_0; lra).
  assert (Q1 := E 0 1). assert (Q2 := E 0 2). rewrite !Rplus_0_l in *.
  specialize (H (eq_trans (Q1 S1) (eq_sym (Q2 S2)))).
  apply (f_equal m11) in H. unfold euler_to_dcm in H; simpl in H. rewrite cos_0, sin_0 in H.
  assert (cos 2 < cos 1) by (apply cos_decreasing_1; lra). lra.
Qed.

Lemma atan2_bound_unique y x t : - PI < t <= PI -> y = 2 * sin t -> x = 2 * cos t -> atan2 y x = t.
Proof. intros H -> ->. apply atan2_polar; lra. Qed.

Lemma atan2_sound r t : 0 < r -> r * sin t = r * sin (atan2 (r * sin t) (r * cos t)) /\
  r * cos t = r * cos (atan2 (r * sin t) (r * cos t)).
Proof.
  intros Hr. rewrite atan2_scale by assumption. unfold atan2. assert (P := PI_RGT_0).
  assert (H := sin2_cos2 t). unfold Rsqr in H.
  assert (AS : forall c s, 0 < c -> s * s + c * c = 1 -> sin (atan (s / c)) = s /\ cos (atan (s / c)) = c).
  { intros c s Hc Hu. rewrite sin_atan, cos_atan.
    assert (X : sqrt (1 + (s / c)²) = 1 / c).
    { unfold Rsqr. replace (1 + s / c * (s / c)) with ((1 / c) * (1 / c)).
      - apply sqrt_square. apply Rlt_le, Rdiv_lt_0_compat; lra.
      - transitivity ((s * s + c * c) / (c * c)); [rewrite Hu; field; lra|field; lra]. }
    rewrite X. split; field; lra. }
  destruct (Rlt_dec 0 (cos t)) as [a|a].
  - destruct (AS (cos t) (sin t) a H) as [A B]. rewrite A, B. split; reflexivity.
  - destruct (Rlt_dec (cos t) 0) as [b|b].
    + destruct (AS (- cos t) (- sin t)) as [A B]; [lra|lra|].
      replace (- sin t / - cos t) with (sin t / cos t) in A, B by (field; lra).
      destruct (Rle_dec 0 (sin t)).
      * rewrite neg_sin, neg_cos, A, B. split; ring.
      * unfold Rminus. rewrite sin_plus, cos_plus, sin_neg, cos_neg, sin_PI, cos_PI, A, B. split; ring.
    + assert (Hc0 : cos t = 0) by lra. rewrite Hc0 in H |- *.
      destruct (Rlt_dec 0 (sin t)); [|destruct (Rlt_dec (sin t) 0)].
      * rewrite sin_PI2, cos_PI2. split; [|ring]. assert (Hs : sin t = 1) by nra. rewrite Hs; ring.
      * rewrite sin_neg, cos_neg, sin_PI2, cos_PI2. split; [|ring]. assert (Hs : sin t = -1) by nra. rewrite Hs; ring.
      * exfalso. nra.
Qed.

Lemma euler_up_kept roll1 heading1 roll2 heading2 :
  dcm_to_euler (attitude roll1 (PI / 2) heading1) = dcm_to_euler (attitude roll2 (PI / 2) heading2) ->
  attitude roll1 (PI / 2) heading1 = attitude roll2 (PI / 2) heading2.
Proof.
  rewrite <- !euler_dcm_attitude. intros H. apply (f_equal e_heading) in H.
  assert (E : forall r h, e_heading (dcm_to_euler (euler_to_dcm (V r (PI / 2) h))) = atan2 (2 * sin (h - r)) (2 * cos (h - r))).
  { intros r h. unfold dcm_to_euler, euler_to_dcm; simpl. rewrite sin_PI2.
    destruct (Rle_dec (Ropp 1) (- (999 / 1000))); [|lra]. simpl. f_equal; rewrite ?sin_minus, ?cos_minus; ring. }
  rewrite !E in H.
  destruct (atan2_sound 2 (heading1 - roll1)) as [A B]; [lra|].
  destruct (atan2_sound 2 (heading2 - roll2)) as [C D]; [lra|].
  rewrite H in A, B.
  assert (S : sin (heading1 - roll1) = sin (heading2 - roll2)) by lra.
  assert (K : cos (heading1 - roll1) = cos (heading2 - roll2)) by lra.
  rewrite !sin_minus in S. rewrite !cos_minus in K.
  unfold euler_to_dcm; apply mat_ext; simpl; rewrite ?sin_PI2, ?cos_PI2; lra.
Qed.

Lemma case_euler : - PI < PI / 3 <= PI /\ - (PI / 2) < PI / 6 < PI / 2 /\ - PI < PI <= PI /\
  - (999 / 1000) < sin (PI / 6) < 999 / 1000.
Proof. assert (P := PI_RGT_0). rewrite sin_PI6. repeat split; lra. Qed.

Lemma lla_roundtrip_no_pole lat lon : - (PI / 2) <= lat < PI / 2 -> - PI < lon < PI ->
  qne_to_lla (lla_to_qne lat lon) = LL (Fin lat) lon.
Proof.
  intros. rewrite lla_roundtrip by lra. destruct (Req_EM_T lat (PI / 2)); [lra|]. reflexivity.
Qed.
Lemma qne_correct lat lon :
  qnorm2 (lla_to_qne lat lon) = 1 /\ quaternion_to_dcm (lla_to_qne lat lon) = lla_to_cne lat lon.
Proof. split; [apply qne_unit|apply qne_dcm]. Qed.
Lemma cne_columns lat lon :
  mvec (lla_to_cne lat lon) (V 1 0 0) = north lat lon /\ mvec (lla_to_cne lat lon) (V 0 1 0) = east lat lon /\
  mvec (lla_to_cne lat lon) (V 0 0 1) = vneg (up lat lon).
Proof. unfold lla_to_cne, north, east, up, vneg. repeat split; apply vec_ext; simpl; ring. Qed.
Lemma lla_antimeridian_refuted :
  ~ (forall lat lon, - (PI / 2) < lat < PI / 2 -> - PI < lon <= PI ->
       qne_to_lla (lla_to_qne lat lon) = LL (Fin lat) lon).
Proof.
  intros H. assert (P := PI_RGT_0). specialize (H 0 PI ltac:(lra) ltac:(lra)).
  assert (A := lla_antimeridian 0). rewrite H in A. discriminate.
Qed.
Lemma case_lla : - (PI / 2) <= PI / 6 < PI / 2 /\ - PI < 2 < PI.
Proof. assert (P := PI_gt_3). repeat split; lra. Qed.

Lemma xyz_height_normal lat lon h k :
  vsub (lla_to_xyz (V lat lon k)) (lla_to_xyz (V lat lon h)) = vscale (k - h) (up lat lon) /\
  dot (up lat lon) (up lat lon) = 1 /\
  exists c, 0 < c /\ gradient (lla_to_xyz (V lat lon 0)) = vscale c (up lat lon).
Proof.
  split; [apply xyz_height|]. split; [apply up_unit|].
  exists (RN lat / semi_major ^ 2). split; [|apply up_normal].
  destruct (radii lat) as [_ [A _]]. unfold semi_major. apply Rdiv_lt_0_compat; lra.
Qed.

Lemma gravity_equator_to_pole lat1 lat2 : 0 <= lat1 <= lat2 -> lat2 <= PI / 2 ->
  9780 / 1000 <= gravity lat1 0 <= gravity lat2 0 /\ gravity lat2 0 <= 9833 / 1000.
Proof.
  intros H K. assert (P := PI_RGT_0).
  destruct (gravity_equator_pole lat1) as [_ [A _]]. destruct (gravity_equator_pole lat2) as [_ [_ B]].
  split; [split|exact B].
  - unfold g0 in A. lra.
  - apply gravity_latitude. apply Rsqr_incr_1.
    + apply sin_incr_1; lra.
    + apply sin_ge_0; lra.
    + apply sin_ge_0; lra.
Qed.

Lemma distance6_direction :
  ~ (forall lat1 lon1 lat2 lon2 h1 h2,
       - (PI / 2) < lat1 < PI / 2 -> - (PI / 2) < lat2 < PI / 2 -> 0 <= h1 -> 0 <= h2 ->
       let d := distance6 lat1 lon1 lat2 lon2 h1 h2 in
       (0 < vx d <-> lat1 < lat2) /\ (0 < vz d <-> h2 < h1)) /\
  ~ (forall lat1 lon1 lat2 lon2 h1 h2,
       - (PI / 2) < lat1 < PI / 2 -> - (PI / 2) < lat2 < PI / 2 -> 0 <= h1 -> 0 <= h2 ->
       let d := distance6 lat1 lon1 lat2 lon2 h1 h2 in
       (0 < vx d <-> lat2 < lat1) /\ (0 < vz d <-> h1 < h2)).
Proof.
  assert (P := PI_gt_3). assert (S := distance6_signs (1 / 2) 0 0 0 1 0 ltac:(lra) ltac:(lra) ltac:(lra) ltac:(lra)).
  cbv zeta in S. split; intros H; specialize (H (1 / 2) 0 0 0 1 0 ltac:(lra) ltac:(lra) ltac:(lra) ltac:(lra));
    cbv zeta in H; destruct S as (A & _ & _ & _ & B & _); destruct H as [C D].
  - assert (1 / 2 < 0); [|lra]. apply C, A. lra.
  - assert (1 < 0); [|lra]. apply D, B. lra.
Qed.
Lemma distance4_north lat1 lon1 lat2 lon2 : let d := distance4 lat1 lon1 lat2 lon2 in
  vx d = RM lat1 * (lat1 - lat2) /\ (0 < vx d <-> lat2 < lat1) /\ (vx d = 0 <-> lat1 = lat2) /\ vz d = 0.
Proof.
  cbv zeta. unfold distance4, dN. cbn [vx vz]. assert (M : 0 < RM lat1) by (destruct (RM_bounds lat1); unfold semi_major, e2 in *; lra).
  split; [ring|]. split; [split; intros; nra|]. split; [|reflexivity]. split; intros H; [|subst; ring]. apply Rmult_integral in H as [H|H]; lra.
Qed.
Lemma distance4_wrong : ~ (forall lat lon, distance4 lat lon lat lon = vzero).
Proof.
  intros H. specialize (H (1 / 2) 0). unfold distance4, dE, vzero in H. apply (f_equal vy) in H. simpl in H.
  rewrite cos_0 in H. destruct (radii 0) as [_ [A _]]. lra.
Qed.
Lemma case_distance : - (PI / 2) < 1 / 2 < PI / 2 /\ -6000000 < 100.
Proof. assert (P := PI_gt_3). repeat split; lra. Qed.
Lemma rv_dcm_zero : ~ (forall v, exists m, rv_to_DCM v = Some m).
Proof.
  intros H. destruct (H vzero) as [m E]. unfold rv_to_DCM, vzero in E; simpl in E.
  destruct (Req_EM_T (0 * 0 + 0 * 0 + 0 * 0) 0); [discriminate|]. apply n. ring.
Qed.
Lemma case_nonzero : V 1 2 3 <> vzero.
Proof. intros H. apply (f_equal vx) in H. simpl in H. lra. Qed.
