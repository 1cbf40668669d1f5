(** A unit at rest (C47). *)
From Coq Require Import Reals List Lra Psatz.
From Verif Require Import RealMath EarthModel ConvertModel ConvertSpec ConvertProofs EarthProofs MathWrap SmoothModel
  InsModel InsSpec InsProofs.
Import ListNotations.
Open Scope R_scope.

Definition nav_rest (n : navepoch) (lat lon h : R) (q : quat) : Prop :=
  n_pos n = V lat lon h /\ n_vn n = vzero /\ n_dvn n = vzero /\ n_Qne n = lla_to_qne lat lon /\
  n_Qbn n = q /\ n_Cbn n = quaternion_to_dcm q /\
  n_gb n = vzero /\ n_ab n = vzero /\ n_gs n = vzero /\ n_as n = vzero.
Definition at_rest (s : ins) (lat lon h dt : R) (q : quat) (a g : vec) : Prop :=
  nav_rest (s_nav s) lat lon h q /\ s_dt s = dt /\
  ((s_acce_pre s = vzero /\ s_gyro_pre s = vzero) \/ (s_acce_pre s = a /\ s_gyro_pre s = g)).

Definition place_ok (lat lon h : R) : Prop := - (PI / 2) < lat < PI / 2 /\ - PI < lon < PI /\ -6000000 < h.

Lemma place_rates lat lon h : place_ok lat lon h -> rates_defined (V lat lon h) = true.
Proof.
  intros (A & _ & H). assert (C := cos_range_pos lat A). assert (B := radii lat).
  unfold rates_defined; simpl. destruct (Req_EM_T (cos lat) 0); [lra|].
  destruct (Req_EM_T (RN lat + h) 0); [lra|]. destruct (Req_EM_T (RM lat + h) 0); [lra|]. reflexivity.
Qed.
Lemma wen_vertical d lat lon h : omega_en_n (V 0 0 d) (V lat lon h) = vzero.
Proof. unfold omega_en_n; simpl. apply vec_ext; simpl; unfold Rdiv; ring. Qed.
Lemma wen_opt_vertical d lat lon h : place_ok lat lon h -> wen_opt (V 0 0 d) (V lat lon h) = Some vzero.
Proof. intros P. unfold wen_opt. rewrite (place_rates _ _ _ P), wen_vertical. reflexivity. Qed.
Lemma lla_opt_place lat lon h : place_ok lat lon h -> lla_opt (lla_to_qne lat lon) = Some (lat, lon).
Proof.
  intros (A & B & _). unfold lla_opt. rewrite lla_roundtrip_no_pole by lra. reflexivity.
Qed.

(** the earth's turn seen in local axes is the one seen in earth axes *)
Lemma earth_turn_local lat lon k :
  vscale k (omega_ie_n lat) = mvec (mtrans (quaternion_to_dcm (lla_to_qne lat lon))) (vscale k omega_ie_e).
Proof.
  rewrite qne_dcm. unfold omega_ie_n, omega_ie_e, lla_to_cne. apply vec_ext; simpl; ring.
Qed.
Lemma position_turn lat lon k :
  qnormalized (qmul (qmul (qconj (rv_to_quaternion (vscale k omega_ie_e))) (lla_to_qne lat lon))
                    (rv_to_quaternion (vscale k (omega_ie_n lat)))) = lla_to_qne lat lon.
Proof. rewrite (earth_turn_local lat lon). apply turn_cancels, qne_unit. Qed.

Lemma half_turn k v : vdiv (vscale k v) 2 = vscale (k / 2) v.
Proof. vring. Qed.
Lemma vadd_zero_r v : vadd v vzero = v.
Proof. destruct v; vring. Qed.
Lemma vadd_zero_l v : vadd vzero v = v.
Proof. destruct v; vring. Qed.

(** one epoch: if the velocity increment comes out as (0, 0, d), position and attitude stay, apart from the height *)
Lemma extrapolate_rest s lat lon h dt q a g : at_rest s lat lon h dt q a g -> place_ok lat lon h ->
  extrapolate s = Some (Ins (s_nav s) dt (s_acce_pre s) (s_gyro_pre s) vzero (omega_ie_n lat) vzero (V lat lon h) (gravity lat h)).
Proof.
  intros ((Hp & Hv & Hd & Hq & _) & Ht & _) P. unfold extrapolate. cbv zeta. rewrite Hp, Hv, Hd, Hq, Ht.
  change (vx (V lat lon h)) with lat. change (vz (V lat lon h)) with h.
  assert (W := wen_opt_vertical 0 lat lon h P). change (V 0 0 0) with vzero in W. rewrite W. cbn [bind].
  rewrite vadd_zero_r, !half_turn, position_turn, (lla_opt_place _ _ _ P). cbn [bind fst snd].
  replace (h - vz vzero * dt / 2) with h by (simpl; unfold Rdiv; ring).
  replace (vadd vzero (vscale (1 / 2) vzero)) with vzero by (apply vec_ext; simpl; ring).
  rewrite W. reflexivity.
Qed.

Definition residual (lat dt : R) (f : vec) : vec :=
  vsub f (vscale (1 / 4) (cross (earth_turn lat dt) (cross (earth_turn lat dt) f))).

Lemma dcm_back c v : rotation c -> mvec c (mvec (mtrans c) v) = v.
Proof. intros (_ & H & _). rewrite <- mvec_mmul, H. apply mvec_eye. Qed.

(** cross products commute with rotations *)
Lemma rot_cross c u v : rotation c -> mvec c (cross u v) = cross (mvec c u) (mvec c v).
Proof.
  intros H. assert (A := madj_rotation c H).
  assert (E0 := f_equal m00 A). assert (E1 := f_equal m01 A). assert (E2 := f_equal m02 A).
  assert (E3 := f_equal m10 A). assert (E4 := f_equal m11 A). assert (E5 := f_equal m12 A).
  assert (E6 := f_equal m20 A). assert (E7 := f_equal m21 A). assert (E8 := f_equal m22 A). clear A H.
  destruct c as [c0 c1 c2 c3 c4 c5 c6 c7 c8], u as [ux uy uz], v as [x y z]. simpl in *.
  apply vec_ext; simpl.
  - rewrite <- E0, <- E3, <- E6. ring.
  - rewrite <- E1, <- E4, <- E7. ring.
  - rewrite <- E2, <- E5, <- E8. ring.
Qed.

Lemma cross_same_pre a g ap gp : (ap = vzero /\ gp = vzero) \/ (ap = a /\ gp = g) ->
  vdiv (vadd (cross gp a) (cross ap g)) 12 = vzero.
Proof.
  intros [[-> ->]|[-> ->]]; destruct a, g; vring.
Qed.

Lemma rest_sculling (C : mat) lat dt f ap gp : rotation C ->
  let g := rest_gyro C lat dt in let a := mvec (mtrans C) f in
  ((ap = vzero /\ gp = vzero) \/ (ap = a /\ gp = g)) ->
  mvec (mmul (msub eye (mscale (1 / 2) (skew (earth_turn lat dt)))) C)
       (vadd (vadd a (vscale (1 / 2) (cross g a))) (vdiv (vadd (cross gp a) (cross ap g)) 12)) = residual lat dt f.
Proof.
  intros HC g a Hp. rewrite (cross_same_pre a g ap gp Hp), vadd_zero_r.
  rewrite mvec_mmul. rewrite mvec_vadd, mvec_vscale, rot_cross by exact HC.
  unfold g, a, rest_gyro. rewrite !dcm_back by exact HC.
  unfold residual. set (z := earth_turn lat dt). clearbody z. destruct z, f. vring.
Qed.

Lemma velocity_rest s lat lon h dt q f d a :
  qnorm2 q = 1 -> dt <> 0 -> place_ok lat lon h ->
  a = mvec (mtrans (quaternion_to_dcm q)) f ->
  let g := rest_gyro (quaternion_to_dcm q) lat dt in
  at_rest s lat lon h dt q a g ->
  vadd (residual lat dt f) (V 0 0 (gravity lat h * dt)) = V 0 0 d ->
  velocity_update (Ins (s_nav s) dt (s_acce_pre s) (s_gyro_pre s) vzero (omega_ie_n lat) vzero (V lat lon h) (gravity lat h)) a g
  = Some (Ins (nav_vel (s_nav s) (V 0 0 d) (V 0 0 d) (vdiv (residual lat dt f) dt)) dt (s_acce_pre s) (s_gyro_pre s)
       vzero (omega_ie_n lat) (V 0 0 (d / 2)) (V lat lon h) (gravity lat h)).
Proof.
  intros Hq Hd P -> g ((Hp & Hv & _ & _ & HQ & HC & _) & Ht & Hpre) HR.
  unfold velocity_update. cbv zeta. cbn [s_nav s_dt s_acce_pre s_gyro_pre s_wen s_wie s_pos_mid s_g].
  rewrite Hv, HC.
  replace (vscale dt (vadd vzero (omega_ie_n lat))) with (earth_turn lat dt)
    by (unfold earth_turn, omega_ie_n; apply vec_ext; simpl; ring).
  subst g. rewrite (rest_sculling _ lat dt f _ _ (dcm_rotation q Hq) Hpre).
  replace (vscale dt (vsub (V 0 0 (gravity lat h)) (cross (vadd (vscale 2 (omega_ie_n lat)) vzero) vzero)))
    with (V 0 0 (gravity lat h * dt)) by (apply vec_ext; simpl; ring).
  rewrite HR, !vadd_zero_l. destruct (Req_EM_T dt 0); [contradiction|].
  replace (vdiv (V 0 0 d) 2) with (V 0 0 (d / 2)) by (apply vec_ext; simpl; field).
  rewrite (wen_opt_vertical _ _ _ _ P). reflexivity.
Qed.

Lemma position_rest n lat lon h dt ap gp d g0' : place_ok lat lon h ->
  place_ok lat lon (1 / 2 * (h - d / 2 * dt + h)) ->
  n_pos n = V lat lon h -> n_Qne n = lla_to_qne lat lon ->
  position_update (Ins n dt ap gp vzero (omega_ie_n lat) (V 0 0 (d / 2)) (V lat lon h) g0')
  = Some (Ins (nav_place n (V lat lon (h - d / 2 * dt)) (lla_to_qne lat lon) (lla_to_cne lat lon)) dt ap gp
       vzero (omega_ie_n lat) (V 0 0 (d / 2)) (V lat lon (1 / 2 * (h - d / 2 * dt + h))) g0').
Proof.
  intros P P2 Hp HQ. unfold position_update. cbv zeta. cbn [s_nav s_dt s_wie s_wen s_vn_mid].
  rewrite HQ, vadd_zero_r, position_turn, (lla_opt_place _ _ _ P). cbn [bind fst snd]. rewrite Hp. cbn [vx vy vz].
  replace (lat + 1 / 2 * (lat - lat)) with lat by ring. replace (lon + 1 / 2 * (lon - lon)) with lon by ring.
  rewrite (wen_opt_vertical _ _ _ _ P2). reflexivity.
Qed.

Lemma atti_rest n lat dt ap gp vm pm g0' q : qnorm2 q = 1 ->
  n_Qbn n = q -> let g := rest_gyro (quaternion_to_dcm q) lat dt in
  gp = vzero \/ gp = g ->
  atti_update (Ins n dt ap gp vzero (omega_ie_n lat) vm pm g0') g
  = Ins (nav_turn n q (quaternion_to_dcm q) (dcm_to_euler (quaternion_to_dcm q))) dt ap gp vzero (omega_ie_n lat) vm pm g0'.
Proof.
  intros Hq HQ g Hp. unfold atti_update. cbv zeta. cbn [s_nav s_dt s_gyro_pre s_wie s_wen s_acce_pre s_vn_mid s_pos_mid s_g].
  replace (gyro_to_rv g gp) with g.
  2:{ unfold gyro_to_rv. destruct Hp as [->| ->]; destruct g; apply vec_ext; simpl; field. }
  rewrite vadd_zero_r, HQ. unfold g, rest_gyro.
  replace (earth_turn lat dt) with (vscale dt (omega_ie_n lat))
    by (unfold earth_turn, omega_ie_n; apply vec_ext; simpl; ring).
  rewrite turn_cancels by exact Hq. reflexivity.
Qed.

Lemma compensate_zero s v : compensate s v vzero vzero = v.
Proof. unfold compensate. destruct v; apply vec_ext; simpl; ring. Qed.

Lemma forward_rest s lat lon h dt q f d time :
  qnorm2 q = 1 -> dt <> 0 -> place_ok lat lon h -> place_ok lat lon (1 / 2 * (h - d / 2 * dt + h)) ->
  let a := mvec (mtrans (quaternion_to_dcm q)) f in
  let g := rest_gyro (quaternion_to_dcm q) lat dt in
  at_rest s lat lon h dt q a g ->
  vadd (residual lat dt f) (V 0 0 (gravity lat h * dt)) = V 0 0 d ->
  exists t, forward s (Imu time g a) = Some t /\
    n_pos (s_nav t) = V lat lon (h - d / 2 * dt) /\ n_vn (s_nav t) = V 0 0 d /\ n_dvn (s_nav t) = V 0 0 d /\
    n_Qne (s_nav t) = lla_to_qne lat lon /\ n_Qbn (s_nav t) = q /\ n_Cbn (s_nav t) = quaternion_to_dcm q /\
    n_gb (s_nav t) = vzero /\ n_ab (s_nav t) = vzero /\ n_gs (s_nav t) = vzero /\ n_as (s_nav t) = vzero /\
    s_dt t = dt /\ s_acce_pre t = a /\ s_gyro_pre t = g.
Proof.
  intros Hq Hdt P P2 a g HR Hd. unfold forward. cbv zeta.
  assert (HR2 := HR). destruct HR2 as ((Hp & Hv & Hdv & HQe & HQ & HC & B1 & B2 & B3 & B4) & Ht & Hpre).
  rewrite B1, B2, B3, B4, !compensate_zero. cbn [i_acce i_gyro i_gpst]. unfold mechanise.
  rewrite (extrapolate_rest s lat lon h dt q a g HR P). cbn [bind].
  assert (VU := velocity_rest s lat lon h dt q f d a Hq Hdt P eq_refl HR Hd). fold g in VU. rewrite VU. cbn [bind].
  rewrite position_rest; [|exact P|exact P2|simpl; exact Hp|simpl; exact HQe]. cbn [bind].
  assert (AU := atti_rest (nav_place (nav_vel (s_nav s) (V 0 0 d) (V 0 0 d) (vdiv (residual lat dt f) dt))
     (V lat lon (h - d / 2 * dt)) (lla_to_qne lat lon) (lla_to_cne lat lon)) lat dt (s_acce_pre s) (s_gyro_pre s)
     (V 0 0 (d / 2)) (V lat lon (1 / 2 * (h - d / 2 * dt + h))) (gravity lat h) q Hq HQ).
  cbv zeta in AU. fold g in AU. rewrite AU by tauto.
  eexists. split; [reflexivity|]. simpl. rewrite B1, B2, B3, B4. repeat split; reflexivity.
Qed.

(** the sample for which the mechanisation rests exactly *)
Definition balanced (lat h dt : R) : vec :=
  let z := earth_turn lat dt in let w := V 0 0 (- (gravity lat h * dt)) in
  vscale (1 / (1 + dot z z / 4)) (vadd w (vscale (1 / 4 * dot z w) z)).
Lemma dot_nonneg v : 0 <= dot v v.
Proof. unfold dot. nra. Qed.
Lemma residual_balanced lat h dt : residual lat dt (balanced lat h dt) = V 0 0 (- (gravity lat h * dt)).
Proof.
  unfold residual, balanced. set (z := earth_turn lat dt). set (w := V 0 0 (- (gravity lat h * dt))).
  assert (N := dot_nonneg z). clearbody z w. destruct z as [x y t], w as [u v r]. unfold dot in *. simpl in *.
  apply vec_ext; simpl; field; lra.
Qed.
Lemma turn_size lat dt : dot (earth_turn lat dt) (earth_turn lat dt) = (omega_e * dt) ^ 2.
Proof.
  unfold dot, earth_turn; simpl. assert (H := sin2_cos2 lat). unfold Rsqr in H.
  transitivity ((omega_e * dt) * (omega_e * dt) * (sin lat * sin lat + cos lat * cos lat)); [ring|rewrite H; ring].
Qed.
Lemma dot_cross2 z w : dot (cross z (cross z w)) (cross z (cross z w)) <= (dot z z) * (dot z z) * dot w w.
Proof.
  (* |z x u|^2 = |z|^2|u|^2 - (z.u)^2 <= |z|^2 |u|^2 *)
  assert (L : forall a b, dot (cross a b) (cross a b) = dot a a * dot b b - (dot a b) ^ 2)
    by (intros [a1 a2 a3] [b1 b2 b3]; unfold dot; simpl; ring).
  rewrite L, L.
  assert (A := dot_nonneg z). assert (B : 0 <= (dot z (cross z w)) ^ 2) by (apply pow2_ge_0).
  assert (C : 0 <= (dot z w) ^ 2) by (apply pow2_ge_0).
  assert (D : 0 <= dot z z * (dot z w) ^ 2) by (apply Rmult_le_pos; assumption). lra.
Qed.
Lemma quarter_bound z w k : dot z z = k -> 0 <= vz w -> vx w = 0 -> vy w = 0 ->
  vnorm (vscale (1 / 4) (cross z (cross z w))) <= 1 / 4 * k * vz w.
Proof.
  intros K W X Y. assert (B := dot_cross2 z w). assert (N := dot_nonneg z). rewrite K in *.
  assert (E : dot w w = vz w * vz w) by (unfold dot; rewrite X, Y; ring). rewrite E in B.
  unfold vnorm.
  rewrite <- (sqrt_square (1 / 4 * k * vz w)) by (apply Rmult_le_pos; [lra|assumption]).
  apply sqrt_le_1_alt. unfold dot in *. simpl in *. nra.
Qed.

Lemma rest_force_gap (C : mat) lat h dt : rotation C -> 0 < dt ->
  vnorm (vsub (mvec (mtrans C) (balanced lat h dt)) (rest_force C lat h dt)) <= rest_bound lat h dt.
Proof.
  intros HC Hdt. unfold rest_force.
  set (w := V 0 0 (- (gravity lat h * dt))).
  assert (G := gravity_positive lat h). assert (Gd : 0 < gravity lat h * dt) by (apply Rmult_lt_0_compat; assumption).
  set (k := 1 / (1 + dot (earth_turn lat dt) (earth_turn lat dt) / 4)).
  assert (N := dot_nonneg (earth_turn lat dt)).
  assert (K : 0 < k <= 1).
  { unfold k. split; [apply Rdiv_lt_0_compat; lra|]. apply Rmult_le_reg_r with (1 + dot (earth_turn lat dt) (earth_turn lat dt) / 4); [lra|].
    unfold Rdiv at 1. rewrite Rmult_assoc, Rinv_l; lra. }
  assert (E : vsub (mvec (mtrans C) (balanced lat h dt)) (mvec (mtrans C) w) =
    mvec (mtrans C) (vscale (- k) (vscale (1 / 4) (cross (earth_turn lat dt) (cross (earth_turn lat dt) (vneg w)))))).
  { transitivity (mvec (mtrans C) (vsub (balanced lat h dt) w)).
    - destruct C, (balanced lat h dt), w; vring.
    - f_equal. unfold balanced, k. fold w. set (z := earth_turn lat dt) in *. clearbody z w. destruct z, w. unfold dot in *; simpl in *.
      apply vec_ext; simpl; field; lra. }
  rewrite E.
  assert (Q := quarter_bound (earth_turn lat dt) (vneg w) ((omega_e * dt) ^ 2) (turn_size lat dt)).
  unfold w in Q at 1 2 3 5; simpl in Q. rewrite Ropp_involutive in Q. 
  specialize (Q (Rlt_le _ _ Gd) ltac:(ring) ltac:(ring)).
  eapply Rle_trans; [|unfold rest_bound; simpl; exact Q].
  unfold vnorm. rewrite rotation_dot by exact HC. apply sqrt_le_1_alt.
  set (u := vscale (1 / 4) (cross (earth_turn lat dt) (cross (earth_turn lat dt) (vneg w)))). clearbody u.
  assert (U := dot_nonneg u). replace (dot (vscale (- k) u) (vscale (- k) u)) with (k * k * dot u u)
    by (unfold dot; simpl; ring). assert (k * k <= 1) by nra. nra.
Qed.

Definition rest_samples (g a : vec) (times : list R) : list ins_op := map (fun t => OpSample (Imu t g a)) times.

Lemma rest_run lat lon h dt q times : qnorm2 q = 1 -> dt <> 0 -> place_ok lat lon h ->
  let a := mvec (mtrans (quaternion_to_dcm q)) (balanced lat h dt) in
  let g := rest_gyro (quaternion_to_dcm q) lat dt in
  forall s, at_rest s lat lon h dt q a g ->
  exists t, ins_run s (rest_samples g a times) = Some t /\ at_rest t lat lon h dt q a g.
Proof.
  intros Hq Hdt P a g. induction times as [|x r IH]; simpl; intros s HR.
  - exists s. split; [reflexivity|exact HR].
  - destruct (forward_rest s lat lon h dt q (balanced lat h dt) 0 x Hq Hdt P) as (t & F & H).
    + replace (1 / 2 * (h - 0 / 2 * dt + h)) with h by field. exact P.
    + exact HR.
    + rewrite residual_balanced. apply vec_ext; simpl; ring.
    + fold a g in F, H. unfold ins_do. rewrite F. cbn [bind]. apply IH.
      replace (h - 0 / 2 * dt) with h in H by (unfold Rdiv; ring). change (V 0 0 0) with vzero in H.
      unfold at_rest, nav_rest. tauto.
Qed.

Lemma init_at_rest s0 time lat lon h atti rate a g :
  at_rest (init_pva s0 (make_nav time (V lat lon h) vzero atti) rate) lat lon h (1 / rate) (euler_to_quaternion atti) a g.
Proof.
  unfold at_rest, nav_rest; simpl. rewrite euler_dcm_quaternion. repeat split. left; split; reflexivity.
Qed.

Lemma rests s0 time lat lon h atti rate :
  - (PI / 2) < lat < PI / 2 -> - PI < lon < PI -> -6000000 < h -> 0 < rate ->
  let dt := 1 / rate in let C := euler_to_dcm atti in
  exists acce, vnorm (vsub acce (rest_force C lat h dt)) <= rest_bound lat h dt /\
    forall times, exists s,
      ins_run (init_pva s0 (make_nav time (V lat lon h) vzero atti) rate) (rest_samples (rest_gyro C lat dt) acce times) = Some s /\
      n_pos (s_nav s) = V lat lon h /\ n_vn (s_nav s) = vzero /\ n_Cbn (s_nav s) = C /\
      n_Qbn (s_nav s) = euler_to_quaternion atti.
Proof.
  intros Hlat Hlon Hh Hr dt C. assert (Hdt : 0 < dt) by (apply Rdiv_lt_0_compat; lra).
  assert (HC : rotation C) by (unfold C; rewrite <- euler_dcm_quaternion; apply dcm_rotation, euler_quaternion_unit).
  exists (mvec (mtrans C) (balanced lat h dt)). split; [apply rest_force_gap; assumption|].
  intros times.
  destruct (rest_run lat lon h dt (euler_to_quaternion atti) times (euler_quaternion_unit atti) ltac:(lra)
     (conj Hlat (conj Hlon Hh)) (init_pva s0 (make_nav time (V lat lon h) vzero atti) rate)) as (t & R1 & R2).
  { apply init_at_rest. }
  rewrite euler_dcm_quaternion in R1. fold C in R1. exists t. split; [exact R1|].
  destruct R2 as ((A1 & A2 & _ & _ & A3 & A4 & _) & _). rewrite euler_dcm_quaternion in A4. auto.
Qed.

(** the first epoch with exactly what a unit at rest measures *)
Lemma first_epoch_velocity s0 time t1 lat lon h atti rate s :
  - (PI / 2) < lat < PI / 2 -> - PI < lon < PI -> -6000000 < h -> 0 < rate ->
  let dt := 1 / rate in let C := euler_to_dcm atti in
  ins_run (init_pva s0 (make_nav time (V lat lon h) vzero atti) rate)
    (rest_samples (rest_gyro C lat dt) (rest_force C lat h dt) [t1]) = Some s ->
  vnorm (n_vn (s_nav s)) <= rest_bound lat h dt /\ vz (n_pos (s_nav s)) = h - vz (n_vn (s_nav s)) / 2 * dt.
Proof.
  intros Hlat Hlon Hh Hr dt C H. assert (Hdt : 0 < dt) by (apply Rdiv_lt_0_compat; lra).
  set (q := euler_to_quaternion atti).
  assert (Hq : qnorm2 q = 1) by apply euler_quaternion_unit.
  assert (HC : C = quaternion_to_dcm q) by (symmetry; apply euler_dcm_quaternion).
  simpl in H. apply bind_some in H as (t & H & E). injection E as ->.
  unfold forward in H. cbv zeta in H. simpl i_acce in H. simpl i_gyro in H.
  set (st := init_pva s0 (make_nav time (V lat lon h) vzero atti) rate) in *.
  assert (AR := init_at_rest s0 time lat lon h atti rate (rest_force C lat h dt) (rest_gyro C lat dt)).
  fold st dt q in AR.
  change (n_ab (s_nav st)) with vzero in H. change (n_as (s_nav st)) with vzero in H.
  change (n_gb (s_nav st)) with vzero in H. change (n_gs (s_nav st)) with vzero in H.
  rewrite !compensate_zero in H. apply bind_some in H as (m & H & E). injection E as <-.
  unfold mechanise in H. rewrite (extrapolate_rest _ _ _ _ _ _ _ _ AR (conj Hlat (conj Hlon Hh))) in H. cbn [bind] in H.
  apply bind_some in H as (s2 & H2 & H). apply bind_some in H as (s3 & H3 & H). injection H as <-.
  unfold velocity_update in H2. cbv zeta in H2. cbn [s_nav s_dt s_acce_pre s_gyro_pre s_wen s_wie s_pos_mid s_g] in H2.
  change (n_vn (s_nav st)) with vzero in H2. change (n_Cbn (s_nav st)) with C in H2.
  replace (vscale dt (vadd vzero (omega_ie_n lat))) with (earth_turn lat dt) in H2
    by (unfold earth_turn, omega_ie_n; apply vec_ext; simpl; ring).
  assert (RC : rotation C) by (rewrite HC; apply dcm_rotation; exact Hq).
  assert (RS := rest_sculling C lat dt (V 0 0 (- (gravity lat h * dt))) (s_acce_pre st) (s_gyro_pre st) RC).
  cbv zeta in RS. fold (rest_force C lat h dt) in RS. rewrite RS in H2 by (left; split; reflexivity). clear RS.
  replace (vscale dt (vsub (V 0 0 (gravity lat h)) (cross (vadd (vscale 2 (omega_ie_n lat)) vzero) vzero)))
    with (V 0 0 (gravity lat h * dt)) in H2 by (apply vec_ext; simpl; ring).
  set (z := earth_turn lat dt) in *.
  assert (E : vadd (residual lat dt (V 0 0 (- (gravity lat h * dt)))) (V 0 0 (gravity lat h * dt))
     = vscale (1 / 4) (cross z (cross z (V 0 0 (gravity lat h * dt))))).
  { unfold residual. fold z. destruct z; apply vec_ext; simpl; ring. }
  rewrite E in H2. clear E. set (u := vscale (1 / 4) (cross z (cross z (V 0 0 (gravity lat h * dt))))) in *.
  destruct (Req_EM_T dt 0); [discriminate|]. apply bind_some in H2 as (w & _ & H2).
  rewrite !vadd_zero_l in H2.
  assert (N2 : n_vn (s_nav s2) = u /\ n_pos (s_nav s2) = V lat lon h /\ s_vn_mid s2 = vdiv u 2 /\ s_dt s2 = dt).
  { injection H2 as <-. simpl. repeat split; reflexivity. } clear H2. destruct N2 as (N1 & N2 & N3 & N4).
  unfold position_update in H3. apply bind_some in H3 as (ll & _ & H3). apply bind_some in H3 as (w' & _ & H3).
  injection H3 as <-. simpl. rewrite N1, N2, N3, N4. simpl. split; [|field].
  unfold rest_bound. apply (quarter_bound z (V 0 0 (gravity lat h * dt))); simpl; try reflexivity.
  - unfold z. rewrite turn_size. simpl. reflexivity.
  - apply Rlt_le, Rmult_lt_0_compat; [apply gravity_positive|exact Hdt].
Qed.

(** on the equator: one second of rest at 1 Hz *)
Lemma equator_moves s0 :
  exists s, ins_run (init_pva s0 (make_nav 0 vzero vzero vzero) 1)
      (rest_samples (rest_gyro (euler_to_dcm vzero) 0 1) (rest_force (euler_to_dcm vzero) 0 0 1) [1]) = Some s /\
    vz (n_vn (s_nav s)) < 0.
Proof.
  assert (PP := PI_RGT_0). assert (P3 := PI_gt_3).
  set (q := euler_to_quaternion vzero).
  assert (G : gravity 0 0 = g0) by (apply (gravity_equator_pole 0)).
  assert (OE : 0 < omega_e < 1) by (unfold omega_e; lra).
  assert (Gp : 0 < g0 < 10) by (unfold g0; lra).
  destruct (forward_rest (init_pva s0 (make_nav 0 vzero vzero vzero) 1) 0 0 0 1 q (V 0 0 (- (gravity 0 0 * 1)))
     (- (1 / 4 * (omega_e * omega_e) * g0)) 1) as (t & F & H).
  - apply euler_quaternion_unit.
  - lra.
  - unfold place_ok; lra.
  - unfold place_ok. assert (0 < omega_e * omega_e < 1) by nra. assert (0 < omega_e * omega_e * g0 < 10) by nra. lra.
  - assert (AR := init_at_rest s0 0 0 0 0 vzero 1). change (V 0 0 0) with vzero in AR.
    replace (1 / 1) with 1 in AR by field. apply AR.
  - unfold residual, earth_turn. rewrite cos_0, sin_0, G. apply vec_ext; simpl; ring.
  - exists t. unfold q in F. rewrite euler_dcm_quaternion in F.
    unfold rest_samples. cbn [map ins_run ins_do]. unfold rest_force. rewrite F. split; [reflexivity|].
    destruct H as (_ & Hv & _). rewrite Hv. simpl. assert (0 < omega_e * omega_e) by nra.
    assert (0 < omega_e * omega_e * g0) by (apply Rmult_lt_0_compat; lra). lra.
Qed.
