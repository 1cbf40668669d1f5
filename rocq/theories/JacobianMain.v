(** What feeding back a small estimate does to the solution and to the innovations (C75-C77). *)
From Coq Require Import Reals Lra Psatz.
From Coquelicot Require Import Coquelicot.
From Verif Require Import RealMath EarthModel ConvertModel ConvertSpec ConvertProofs EarthProofs MathWrap SmoothModel
  InsModel InsProofs InsRest InsRest2 FusionBase FusionSpec JacobianSpec JacobianBase JacobianProofs.
Open Scope R_scope.

Lemma moves_intro s x f (g : R -> vec) dv : (exists r, 0 < r /\ forall e, Rabs e < r -> exists t, feedback s (err_scale e x) = Some t /\ f t = g e) ->
  g 0 = f s -> vdiff g dv -> moves (after s x f) (f s) dv.
Proof.
  intros (r & Hr & H) G D. exists g. split; [|split; [exact G|apply vdiff_vderive; exact D]].
  exists r. split; [exact Hr|]. intros e He. destruct (H e He) as (t & F & E). unfold after. rewrite F. simpl. rewrite E. reflexivity.
Qed.
Lemma local_cne lat lon v : local_vector lat lon v = mvec (lla_to_cne lat lon) v.
Proof. unfold local_vector, north, east, up, lla_to_cne. destruct v; apply vec_ext; simpl; ring. Qed.

Lemma lat_lon_0 lat lon h d : place_ok lat lon h -> lat_of (turned lat lon d 0) = lat /\ lon_of (turned lat lon d 0) = lon.
Proof.
  intros P. destruct (turned_pos lat lon h d P) as (r & Hr & H).
  assert (W : 0 < qw (turned lat lon d 0)) by (apply H; rewrite Rabs_R0; exact Hr).
  assert (A := lla_opt_ratio _ W). rewrite turned_0 in *. rewrite qnormalized_id in A by apply qne_unit.
  rewrite (lla_opt_place _ _ _ P) in A. injection A as A B. unfold lat_of, lon_of. split; symmetry; assumption.
Qed.
Lemma frame_turn_z lat h x : vz (frame_turn lat h x) = - vx (frame_turn lat h x) * tan lat.
Proof. unfold frame_turn. cbn [vx vy vz]. unfold Rdiv. ring. Qed.
Lemma turn_start u m : mmul (turn u 0) m = m.
Proof. rewrite turn_zero, mmul_eye_l. reflexivity. Qed.

Lemma place_moves s x lat lon h : agrees s lat lon h ->
  moves (after s x earth_place) (earth_place s) (vneg (local_vector lat lon (x_pos x))).
Proof.
  intros A. destruct A as (P & Hp & A). assert (A' : agrees s lat lon h) by (unfold agrees; tauto).
  set (d := frame_turn lat h (x_pos x)). destruct (lat_lon_0 lat lon h d P) as [L0 O0].
  assert (Rd := radii lat). assert (Hh : -6000000 < h) by (destruct P as (_ & _ & ?); assumption).
  destruct (half_angles _ _ _ P) as (_ & _ & Hc).
  apply (moves_intro s x earth_place (fun e => lla_to_xyz (V (lat_of (turned lat lon d e)) (lon_of (turned lat lon d e)) (h + e * vz (x_pos x))))).
  - destruct (feedback_small s x lat lon h A') as (r & Hr & H). exists r. split; [exact Hr|]. intros e He.
    destruct (H e He) as (t & F & Tp & _). exists t. split; [exact F|]. unfold earth_place. rewrite Tp. reflexivity.
  - unfold earth_place. rewrite L0, O0, Hp, Rmult_0_l, Rplus_0_r. reflexivity.
  - destruct (place_derive lat lon h d P (frame_turn_z _ _ _)) as [DL DO].
    assert (DH : is_derive (fun e : R => h + e * vz (x_pos x)) 0 (vz (x_pos x))) by (auto_derive; auto; ring).
    assert (H0 : h + 0 * vz (x_pos x) = h) by ring.
    assert (X := xyz_derive _ _ _ _ _ _ lat lon h DL DO DH L0 O0 H0). cbv zeta in X.
    replace (vneg (local_vector lat lon (x_pos x))) with
      (vadd (vscale (vy d * (RM lat + h)) (north lat lon)) (vadd (vscale (- vx d / cos lat * (RN lat + h) * cos lat) (east lat lon)) (vscale (vz (x_pos x)) (up lat lon)))).
    + exact X.
    + replace (vy d * (RM lat + h)) with (- vx (x_pos x)) by (unfold d, frame_turn; simpl; field; lra).
      replace (- vx d / cos lat * (RN lat + h) * cos lat) with (- vy (x_pos x)) by (unfold d, frame_turn; simpl; field; lra).
      unfold local_vector. apply vec_ext; simpl; ring.
Qed.

Lemma cne_moves s x lat lon h (f : ins -> vec) (p : R -> vec) p0 dp : agrees s lat lon h -> let d := frame_turn lat h (x_pos x) in
  (forall t e, feedback s (err_scale e x) = Some t ->
    n_vn (s_nav t) = mvec (madd eye (skew (vscale e d))) (vsub (n_vn (s_nav s)) (vscale e (x_vel x))) ->
    n_Cbn (s_nav t) = mmul (turn (vadd (x_att x) d) e) (n_Cbn (s_nav s)) -> f t = p e) ->
  f s = p 0 -> p 0 = p0 -> vdiff p dp ->
  moves (after s x (fun t => to_earth t (f t))) (to_earth s (f s)) (local_vector lat lon (vsub dp (cross d p0))).
Proof.
  intros A d Hf Hs Hp0 Hd. destruct A as (P & Hp & A). assert (A' : agrees s lat lon h) by (unfold agrees; tauto).
  destruct (lat_lon_0 lat lon h d P) as [L0 O0]. destruct (half_angles _ _ _ P) as (_ & _ & Hc).
  apply (moves_intro s x (fun t => to_earth t (f t)) (fun e => mvec (lla_to_cne (lat_of (turned lat lon d e)) (lon_of (turned lat lon d e))) (p e))).
  - destruct (feedback_small s x lat lon h A') as (r & Hr & H). exists r. split; [exact Hr|]. intros e He.
    destruct (H e He) as (t & F & Tp & Tv & Tc & _). exists t. split; [exact F|]. unfold to_earth.
    rewrite Tp, (Hf t e F Tv Tc). reflexivity.
  - unfold to_earth. rewrite L0, O0, Hp, Hs. reflexivity.
  - destruct (place_derive lat lon h d P (frame_turn_z _ _ _)) as [DL DO]. rewrite local_cne.
    apply cne_vec; try assumption. { lra. } apply frame_turn_z.
Qed.
Lemma vn_moves d v w : vdiff (fun e => mvec (madd eye (skew (vscale e d))) (vsub v (vscale e w))) (vsub (cross d v) w).
Proof.
  refine (conj _ (conj _ _)); unfold mvec, madd, eye, skew, vscale, vsub, cross; cbn [vx vy vz m00 m01 m02 m10 m11 m12 m20 m21 m22];
  auto_derive; auto; match goal with |- @eq _ ?a ?b => change (@eq R a b) end; ring.
Qed.
Lemma vn_start d v w : mvec (madd eye (skew (vscale 0 d))) (vsub v (vscale 0 w)) = v.
Proof. destruct d, v, w. apply vec_ext; simpl; ring. Qed.

Lemma velocity_moves s x lat lon h : agrees s lat lon h ->
  moves (after s x earth_velocity) (earth_velocity s) (vneg (local_vector lat lon (x_vel x))).
Proof.
  intros A. set (d := frame_turn lat h (x_pos x)).
  replace (vneg (local_vector lat lon (x_vel x))) with
    (local_vector lat lon (vsub (vsub (cross d (n_vn (s_nav s))) (x_vel x)) (cross d (n_vn (s_nav s)))))
    by (rewrite !local_cne; destruct d, (n_vn (s_nav s)), (x_vel x); apply vec_ext; simpl; ring).
  apply (cne_moves s x lat lon h (fun t => n_vn (s_nav t)) (fun e => mvec (madd eye (skew (vscale e d))) (vsub (n_vn (s_nav s)) (vscale e (x_vel x))))); try assumption.
  - intros t e _ Tv _. exact Tv.
  - symmetry. apply vn_start.
  - apply vn_start.
  - apply vn_moves.
Qed.
Lemma direction_moves s x lat lon h v : agrees s lat lon h ->
  moves (after s x (earth_direction v)) (earth_direction v s) (local_vector lat lon (cross (x_att x) (mvec (n_Cbn (s_nav s)) v))).
Proof.
  intros A. set (d := frame_turn lat h (x_pos x)). set (w := mvec (n_Cbn (s_nav s)) v).
  replace (cross (x_att x) w) with (vsub (vadd (cross (vadd (x_att x) d) w) vzero) (cross d w))
    by (destruct d, w, (x_att x); vring).
  apply (cne_moves s x lat lon h (fun t => mvec (n_Cbn (s_nav t)) v) (fun e => mvec (turn (vadd (x_att x) d) e) w)); try assumption.
  - intros t e _ _ Tc. rewrite Tc, mvec_mmul. reflexivity.
  - rewrite turn_zero, mvec_eye. reflexivity.
  - rewrite turn_zero, mvec_eye. reflexivity.
  - apply (turn_vec _ (fun _ => w) w); [apply vdiff_const|reflexivity].
Qed.

(** innovations *)
Lemma position_innovation s x lat lon h lb fix_at : agrees s lat lon h -> n_Cne (s_nav s) = lla_to_cne lat lon ->
  moves (after s x (fun t => pos_z t lb fix_at)) (pos_z s lb fix_at)
    (vneg (vadd (design (pos_h s lb) x) (cross (mvec (n_Cbn (s_nav s)) lb) (frame_turn lat h (x_pos x))))).
Proof.
  intros A Hn. destruct (place_moves s x lat lon h A) as (g & Hg & G0 & Gd).
  set (d := frame_turn lat h (x_pos x)). set (w := mvec (n_Cbn (s_nav s)) lb). set (u := vadd (x_att x) d).
  apply (moves_intro s x (fun t => pos_z t lb fix_at) (fun e => vadd (mvec (mtrans (n_Cne (s_nav s))) (vsub (g e) (lla_to_xyz fix_at))) (mvec (turn u e) w))).
  - destruct (near_and _ _ Hg (feedback_small s x lat lon h A)) as (r & Hr & H). exists r. split; [exact Hr|].
    intros e He. destruct (H e He) as (K & t & F & _ & _ & Tc & Tn & _). exists t. split; [exact F|].
    unfold after in K. rewrite F in K. simpl in K. injection K as K.
    unfold pos_z. cbv zeta. rewrite Tc, Tn, mvec_mmul. unfold earth_place in K. rewrite K. reflexivity.
  - cbv beta. rewrite turn_zero, mvec_eye, G0. reflexivity.
  - replace (vneg (vadd (design (pos_h s lb) x) (cross w d))) with
      (vadd (mvec (mtrans (n_Cne (s_nav s))) (vsub (vneg (local_vector lat lon (x_pos x))) vzero)) (vadd (cross u w) vzero)).
    + apply vdiff_add; [apply vdiff_mvec, vdiff_sub; [|apply vdiff_const]|apply (turn_vec _ (fun _ => w) w); [apply vdiff_const|reflexivity]].
      destruct Gd as (D1 & D2 & D3). refine (conj _ (conj _ _)); apply is_derive_Reals; assumption.
    + rewrite Hn, local_cne. 
      replace (mvec (mtrans (lla_to_cne lat lon)) (vsub (vneg (mvec (lla_to_cne lat lon) (x_pos x))) vzero)) with (vneg (x_pos x)).
      * unfold design, pos_h. fold w. unfold u. destruct d, w, (x_pos x), (x_att x), (x_vel x), (x_gb x), (x_ab x). apply vec_ext; simpl; ring.
      * assert (T := sin2_cos2 lat). assert (U := sin2_cos2 lon). unfold Rsqr in T, U.
        transitivity (mvec (mmul (mtrans (lla_to_cne lat lon)) (lla_to_cne lat lon)) (vneg (x_pos x))).
        -- rewrite <- qne_dcm. destruct (dcm_rotation (lla_to_qne lat lon) (qne_unit lat lon)) as [O _]. rewrite O, mvec_eye. reflexivity.
        -- rewrite mvec_mmul. f_equal. destruct (x_pos x). apply vec_ext; simpl; ring.
Qed.

Lemma wheel_innovation s x lat lon h o : agrees s lat lon h -> o_rate o * s_dt s = 1 ->
  let turn_all := vadd (x_att x) (frame_turn lat h (x_pos x)) in
  moves (after s x (fun t => wheel_velocity (rebiased s t) o)) (wheel_velocity s o)
    (vsub (mvec (Cbv o) (cross (mvec (mtrans (n_Cbn (s_nav s))) (cross turn_all (vadd (s_wie s) (s_wen s)))) (o_lb_wheel o)))
          (design (vel_h s o) x)).
Proof.
  intros A Hr u. set (d := frame_turn lat h (x_pos x)). set (C := n_Cbn (s_nav s)). set (W := vadd (s_wie s) (s_wen s)).
  set (v := n_vn (s_nav s)). set (lb := o_lb_wheel o).
  set (vel := fun e => mvec (madd eye (skew (vscale e d))) (vsub v (vscale e (x_vel x)))).
  set (g := fun e => vadd (mvec (Cbv o) (mvec (mtrans C) (mvec (turn (vneg u) e) (vel e))))
     (mvec (Cbv o) (cross (vsub (vadd (vscale (o_rate o) (s_gyro_pre s)) (vscale e (vneg (x_gb x)))) (mvec (mtrans C) (mvec (turn (vneg u) e) W))) lb))).
  assert (E0 : rebiased s s = s -> True) by auto. clear E0.
  assert (W0 : wheel_velocity (rebiased s s) o = wheel_velocity s o).
  { unfold wheel_velocity, rebiased. cbv zeta. cbn [s_nav s_gyro_pre s_wie s_wen].
    replace (vsub (s_gyro_pre s) (vscale (s_dt s) (vsub (n_gb (s_nav s)) (n_gb (s_nav s))))) with (s_gyro_pre s); [reflexivity|].
    destruct (s_gyro_pre s), (n_gb (s_nav s)); vring. }
  rewrite <- W0 at 1.
  apply (moves_intro s x (fun t => wheel_velocity (rebiased s t) o) g).
  - destruct (feedback_small s x lat lon h A) as (r & Hr' & H). exists r. split; [exact Hr'|]. intros e He.
    destruct (H e He) as (t & F & _ & Tv & Tc & _ & Tg & G & I & N & D). exists t. split; [exact F|].
    unfold wheel_velocity, rebiased. cbv zeta. cbn [s_nav s_gyro_pre s_wie s_wen]. rewrite Tv, Tc, Tg, G, I, N. fold d C v W. fold u.
    unfold g, vel. rewrite mtrans_mmul, turn_trans, !mvec_mmul. do 3 f_equal.
    f_equal. destruct (s_gyro_pre s) as [ga gb gc], (x_gb x) as [xa xb xc], (n_gb (s_nav s)) as [na nb nc]. apply vec_ext; simpl.
    + transitivity (o_rate o * ga - e * (o_rate o * s_dt s) * xa); [ring|rewrite Hr; ring].
    + transitivity (o_rate o * gb - e * (o_rate o * s_dt s) * xb); [ring|rewrite Hr; ring].
    + transitivity (o_rate o * gc - e * (o_rate o * s_dt s) * xc); [ring|rewrite Hr; ring].
  - cbv beta. rewrite W0. unfold g, vel. rewrite turn_zero, !mvec_eye, vn_start. unfold wheel_velocity. cbv zeta. fold C v W lb. rewrite mvec_mmul.
    do 4 f_equal. destruct (s_gyro_pre s), (x_gb x); vring.
  - assert (V0 : vel 0 = v) by apply vn_start.
    assert (D1 := turn_vec (vneg u) vel v _ (vn_moves d v (x_vel x)) V0).
    assert (D2 := turn_vec (vneg u) (fun _ => W) W vzero (vdiff_const W) eq_refl).
    replace (vsub (mvec (Cbv o) (cross (mvec (mtrans C) (cross u W)) lb)) (design (vel_h s o) x)) with
      (vadd (mvec (Cbv o) (mvec (mtrans C) (vadd (cross (vneg u) v) (vsub (cross d v) (x_vel x)))))
        (mvec (Cbv o) (cross (vsub (vneg (x_gb x)) (mvec (mtrans C) (vadd (cross (vneg u) W) vzero))) lb))).
    + unfold g. apply vdiff_add; apply vdiff_mvec.
      * apply vdiff_mvec. exact D1.
      * apply vdiff_cross, vdiff_sub; [apply vdiff_line|apply vdiff_mvec; exact D2].
    + unfold design, vel_h. cbv zeta. fold C v lb. unfold u. fold d. generalize (Cbv o) as B. intros B. clearbody d C W v lb.
      destruct B, C, W, v, lb, d, (x_pos x), (x_att x), (x_vel x), (x_gb x), (x_ab x). apply vec_ext; simpl; ring.
Qed.

(** the zero velocity constraint *)
Lemma zupt_innovation s x lat lon h : agrees s lat lon h ->
  moves (after s x (fun t => n_vn (s_nav t))) (n_vn (s_nav s))
    (vsub (cross (frame_turn lat h (x_pos x)) (n_vn (s_nav s))) (design zupt_h x)).
Proof.
  intros A. set (d := frame_turn lat h (x_pos x)).
  apply (moves_intro s x (fun t => n_vn (s_nav t)) (fun e => mvec (madd eye (skew (vscale e d))) (vsub (n_vn (s_nav s)) (vscale e (x_vel x))))).
  - destruct (feedback_small s x lat lon h A) as (r & Hr & H). exists r. split; [exact Hr|]. intros e He.
    destruct (H e He) as (t & F & _ & Tv & _). exists t. split; [exact F|exact Tv].
  - apply vn_start.
  - replace (vsub (cross d (n_vn (s_nav s))) (design zupt_h x)) with (vsub (cross d (n_vn (s_nav s))) (x_vel x)); [apply vn_moves|].
    unfold design, zupt_h. destruct (x_pos x), (x_att x), (x_vel x), (x_gb x), (x_ab x), (cross d (n_vn (s_nav s))). apply vec_ext; simpl; ring.
Qed.

(** size of the turn of the axes *)
Lemma frame_turn_size lat h x : - (PI / 2) < lat < PI / 2 -> -6000000 < h ->
  vnorm (frame_turn lat h x) <= vnorm x / ((RM lat + h) * cos lat).
Proof.
  intros A H. assert (Hc := cos_gt_0 lat (proj1 A) (proj2 A)). assert (Rd := radii lat).
  assert (C1 := COS_bound lat). set (m := RM lat + h). assert (M : 0 < m) by (unfold m; lra). assert (N : m <= RN lat + h) by (unfold m; lra).
  assert (K : 0 < m * cos lat) by nra.
  apply Rsqr_incr_0_var; [|apply Rle_mult_inv_pos; [apply sqrt_pos|exact K]].
  assert (L : 0 <= vnorm x) by apply sqrt_pos.
  assert (E1 : Rsqr (vnorm (frame_turn lat h x)) = dot (frame_turn lat h x) (frame_turn lat h x)) by (apply Rsqr_sqrt, dot_nonneg).
  assert (E2 : Rsqr (vnorm x / (m * cos lat)) = dot x x / ((m * cos lat) * (m * cos lat))).
  { rewrite Rsqr_div by lra. unfold vnorm. rewrite (Rsqr_sqrt (dot x x) (dot_nonneg x)). reflexivity. }
  rewrite E1, E2. unfold frame_turn, dot. cbn [vx vy vz]. fold m. set (n := RN lat + h) in *.
  assert (T := sin2_cos2 lat). unfold Rsqr in T.
  replace (vy x / n * (vy x / n) + - vx x / m * (- vx x / m) + - vy x * tan lat / n * (- vy x * tan lat / n))
    with (vx x * vx x / (m * m) + vy x * vy x * (sin lat * sin lat + cos lat * cos lat) / ((n * cos lat) * (n * cos lat)))
    by (unfold tan; field; lra).
  rewrite T.
  assert (I1 : / (m * m) <= / ((m * cos lat) * (m * cos lat))).
  { apply Rinv_le_contravar; [nra|]. assert (m * cos lat <= m) by nra. nra. }
  assert (I2 : / ((n * cos lat) * (n * cos lat)) <= / ((m * cos lat) * (m * cos lat))).
  { apply Rinv_le_contravar; [nra|]. assert (m * cos lat <= n * cos lat) by nra. nra. }
  unfold Rdiv. set (a := / (m * m)) in *. set (b := / (n * cos lat * (n * cos lat))) in *. set (c := / (m * cos lat * (m * cos lat))) in *.
  assert (0 < c) by (apply Rinv_0_lt_compat; nra).
  assert (vx x * vx x * a <= vx x * vx x * c) by (apply Rmult_le_compat_l; [nra|assumption]).
  assert (vy x * vy x * b <= vy x * vy x * c) by (apply Rmult_le_compat_l; [nra|assumption]).
  assert (0 <= vz x * vz x * c) by (apply Rmult_le_pos; [nra|lra]). nra.
Qed.
Lemma cross_size a b : vnorm (cross a b) <= vnorm a * vnorm b.
Proof.
  unfold vnorm. rewrite <- sqrt_mult by apply dot_nonneg. apply sqrt_le_1_alt.
  assert (E : dot a a * dot b b - dot (cross a b) (cross a b) = dot a b * dot a b) by (unfold dot, cross; simpl; ring). nra.
Qed.
Lemma lever_size s lat lon h lb x : agrees s lat lon h ->
  vnorm (cross (mvec (n_Cbn (s_nav s)) lb) (frame_turn lat h x)) <= vnorm lb * vnorm x / ((RM lat + h) * cos lat).
Proof.
  intros (P & _ & _ & Hu & HC). destruct P as (P1 & P2 & P3). eapply Rle_trans; [apply cross_size|].
  assert (E : vnorm (mvec (n_Cbn (s_nav s)) lb) = vnorm lb).
  { unfold vnorm. f_equal. rewrite HC. assert (Rt := rotation_dot (mtrans (quaternion_to_dcm (n_Qbn (s_nav s)))) lb).
    rewrite mtrans_trans in Rt. apply Rt. destruct (dcm_rotation _ Hu) as (R1 & R2 & R3).
    unfold rotation. rewrite mtrans_trans. repeat split; try assumption.
    rewrite <- R3. destruct (quaternion_to_dcm (n_Qbn (s_nav s))). unfold mdet; simpl; ring. }
  rewrite E. unfold Rdiv. rewrite Rmult_assoc. apply Rmult_le_compat_l; [apply sqrt_pos|]. apply frame_turn_size; assumption.
Qed.

(** states that agree: after initialisation, and at rest *)
Lemma init_agrees s0 gpst lat lon h vn atti rate : place_ok lat lon h ->
  let s := init_pva s0 (make_nav gpst (V lat lon h) vn atti) rate in
  agrees s lat lon h /\ n_Cne (s_nav s) = lla_to_cne lat lon.
Proof.
  intros P s. destruct (make_nav_sound gpst (V lat lon h) vn atti) as [A B]. repeat split; try exact A; try exact B; try apply P; reflexivity.
Qed.
Lemma rest_agrees s lat lon h dt q a g : at_rest s lat lon h dt q a g -> place_ok lat lon h -> qnorm2 q = 1 -> agrees s lat lon h.
Proof.
  intros ((Hp & _ & _ & HQ & HB & HC & _) & _) P U. unfold agrees. rewrite HB, HC. auto.
Qed.
Lemma place_case : place_ok (PI / 6) 1 100.
Proof. assert (P := PI_gt_3). unfold place_ok. assert (Q := PI_4). lra. Qed.
