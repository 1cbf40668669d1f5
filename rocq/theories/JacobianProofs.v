(** The feedback of a small estimate (C75-C77). *)
From Coq Require Import Reals Lra Psatz.
From Coquelicot Require Import Coquelicot.
From Verif Require Import RealMath EarthModel ConvertModel ConvertSpec ConvertProofs EarthProofs MathWrap SmoothModel
  InsModel InsProofs InsRest InsRest2 FusionBase JacobianSpec JacobianBase.
Open Scope R_scope.

Definition vdiff (g : R -> vec) (dv : vec) : Prop :=
  is_derive (fun e => vx (g e)) 0 (vx dv) /\ is_derive (fun e => vy (g e)) 0 (vy dv) /\ is_derive (fun e => vz (g e)) 0 (vz dv).
Lemma vdiff_vderive g dv : vdiff g dv -> vderive g dv.
Proof. intros (A & B & C). repeat split; apply is_derive_Reals; assumption. Qed.
Lemma vdiff_ext f g dv : (forall e, f e = g e) -> vdiff f dv -> vdiff g dv.
Proof.
  intros H (A & B & C). refine (conj _ (conj _ _)); (eapply is_derive_ext; [|eassumption]); intros; cbv beta; rewrite H; reflexivity.
Qed.
Lemma vdiff_const c : vdiff (fun _ => c) vzero.
Proof. refine (conj _ (conj _ _)); apply @is_derive_const. Qed.
Lemma vdiff_add f g a b : vdiff f a -> vdiff g b -> vdiff (fun e => vadd (f e) (g e)) (vadd a b).
Proof. intros (A & B & C) (D & E & F). refine (conj _ (conj _ _)); apply @is_derive_plus; assumption. Qed.
Lemma vdiff_sub f g a b : vdiff f a -> vdiff g b -> vdiff (fun e => vsub (f e) (g e)) (vsub a b).
Proof. intros (A & B & C) (D & E & F). refine (conj _ (conj _ _)); apply @is_derive_minus; assumption. Qed.
Lemma lin3 (f g h : R -> R) a b c k l m : is_derive f 0 a -> is_derive g 0 b -> is_derive h 0 c ->
  is_derive (fun e => k * f e + l * g e + m * h e) 0 (k * a + l * b + m * c).
Proof. intros A B C. apply @is_derive_plus; [apply @is_derive_plus|]; apply is_derive_scal; assumption. Qed.
Lemma vdiff_mvec m f a : vdiff f a -> vdiff (fun e => mvec m (f e)) (mvec m a).
Proof. intros (A & B & C). refine (conj _ (conj _ _)); unfold mvec; cbn [vx vy vz]; apply lin3; assumption. Qed.
Lemma vdiff_cross f w a : vdiff f a -> vdiff (fun e => cross (f e) w) (cross a w).
Proof.
  intros H. apply (vdiff_ext (fun e => mvec (mscale (-1) (skew w)) (f e))).
  - intros e. unfold cross, mvec, mscale, skew; simpl. f_equal; ring.
  - replace (cross a w) with (mvec (mscale (-1) (skew w)) a) by (unfold cross, mvec, mscale, skew; simpl; f_equal; ring).
    apply vdiff_mvec; assumption.
Qed.
Lemma vdiff_line a b : vdiff (fun e => vadd a (vscale e b)) b.
Proof. refine (conj _ (conj _ _)); cbn [vx vy vz vadd vscale]; auto_derive; auto; ring. Qed.

(** small turns *)
Definition turn (u : vec) (e : R) : mat :=
  let q := rvs u e in
  M (1 - 2 * (qy q * qy q + qz q * qz q) / qnorm2 q) (2 * (qx q * qy q - qw q * qz q) / qnorm2 q) (2 * (qx q * qz q + qw q * qy q) / qnorm2 q)
    (2 * (qx q * qy q + qw q * qz q) / qnorm2 q) (1 - 2 * (qx q * qx q + qz q * qz q) / qnorm2 q) (2 * (qy q * qz q - qw q * qx q) / qnorm2 q)
    (2 * (qx q * qz q - qw q * qy q) / qnorm2 q) (2 * (qy q * qz q + qw q * qx q) / qnorm2 q) (1 - 2 * (qx q * qx q + qy q * qy q) / qnorm2 q).
Lemma turn_dcm u e : e * e * dot u u < PI * PI -> quaternion_to_dcm (qnormalized (rv_to_quaternion (vscale e u))) = turn u e.
Proof.
  intros H. assert (N := rv_norm_pos (vscale e u)). rewrite (rv_small u e H) in *. rewrite dcm_normalized by exact N. reflexivity.
Qed.
Lemma normalized_mul a b : 0 < qnorm2 a -> qnorm2 b = 1 -> qnormalized (qmul a b) = qmul (qnormalized a) b.
Proof.
  intros A B. unfold qnormalized. rewrite qnorm2_mul, B, Rmult_1_r. cbv zeta. destruct (Rlt_dec 0 (qnorm2 a)); [|lra].
  assert (S := sqrt_lt_R0 _ A). set (n := sqrt (qnorm2 a)) in *. destruct a, b. apply quat_ext; simpl; field; lra.
Qed.
Lemma rvs_n0 u : qnorm2 (rvs u 0) = 1.
Proof. unfold qnorm2, rvs; simpl; field. Qed.
Lemma rvs_w u : is_derive (fun e => qw (rvs u e)) 0 0. Proof. unfold rvs, dot. cbn [qw]. der. field. Qed.
Lemma rvs_x u : is_derive (fun e => qx (rvs u e)) 0 (vx u / 2). Proof. unfold rvs, dot. cbn [qx]. der. field. Qed.
Lemma rvs_y u : is_derive (fun e => qy (rvs u e)) 0 (vy u / 2). Proof. unfold rvs, dot. cbn [qy]. der. field. Qed.
Lemma rvs_z u : is_derive (fun e => qz (rvs u e)) 0 (vz u / 2). Proof. unfold rvs, dot. cbn [qz]. der. field. Qed.

(** a turning vector that changes itself *)
Lemma turn_vec u p p0 dp : vdiff p dp -> p 0 = p0 -> vdiff (fun e => mvec (turn u e) (p e)) (vadd (cross u p0) dp).
Proof.
  intros (A & B & C) <-. unfold turn, qnorm2. cbv zeta.
  assert (W := rvs_w u). assert (X := rvs_x u). assert (Y := rvs_y u). assert (Z := rvs_z u).
  assert (w0 : qw (rvs u 0) = 1) by (unfold rvs; simpl; field). assert (x0 : qx (rvs u 0) = 0) by (unfold rvs; simpl; field).
  assert (y0 : qy (rvs u 0) = 0) by (unfold rvs; simpl; field). assert (z0 : qz (rvs u 0) = 0) by (unfold rvs; simpl; field).
  unfold vdiff, mvec, cross, vadd. cbn [vx vy vz m00 m01 m02 m10 m11 m12 m20 m21 m22].
  set (fw := fun e : R => qw (rvs u e)) in *. set (fx := fun e : R => qx (rvs u e)) in *.
  set (fy := fun e : R => qy (rvs u e)) in *. set (fz := fun e : R => qz (rvs u e)) in *.
  set (pa := fun e : R => vx (p e)) in *. set (pb := fun e : R => vy (p e)) in *. set (pc := fun e : R => vz (p e)) in *.
  change (vx (p 0)) with (pa 0). change (vy (p 0)) with (pb 0). change (vz (p 0)) with (pc 0).
  change (qw (rvs u 0)) with (fw 0) in w0. change (qx (rvs u 0)) with (fx 0) in x0. change (qy (rvs u 0)) with (fy 0) in y0. change (qz (rvs u 0)) with (fz 0) in z0.
  change (is_derive fw 0 0) in W. change (is_derive fx 0 (vx u / 2)) in X. change (is_derive fy 0 (vy u / 2)) in Y. change (is_derive fz 0 (vz u / 2)) in Z.
  change (is_derive pa 0 (vx dp)) in A. change (is_derive pb 0 (vy dp)) in B. change (is_derive pc 0 (vz dp)) in C.
  assert (Dw : Derive fw 0 = 0) by (apply is_derive_unique; exact W). assert (Dx : Derive fx 0 = vx u / 2) by (apply is_derive_unique; exact X).
  assert (Dy : Derive fy 0 = vy u / 2) by (apply is_derive_unique; exact Y). assert (Dz : Derive fz 0 = vz u / 2) by (apply is_derive_unique; exact Z).
  assert (Da : Derive pa 0 = vx dp) by (apply is_derive_unique; exact A). assert (Db : Derive pb 0 = vy dp) by (apply is_derive_unique; exact B).
  assert (Dc : Derive pc 0 = vz dp) by (apply is_derive_unique; exact C).
  set (nn := fun e : R => fw e * fw e + fx e * fx e + fy e * fy e + fz e * fz e).
  assert (N : is_derive nn 0 0).
  { unfold nn. auto_derive. { repeat split; eexists; eassumption. }
    change (Derive (fun x => fw x) 0) with (Derive fw 0). change (Derive (fun x => fx x) 0) with (Derive fx 0).
    change (Derive (fun x => fy x) 0) with (Derive fy 0). change (Derive (fun x => fz x) 0) with (Derive fz 0).
    rewrite w0, x0, y0, z0, Dw. ring. }
  assert (Dn : Derive nn 0 = 0) by (apply is_derive_unique; exact N). assert (n0 : nn 0 = 1) by (unfold nn; rewrite w0, x0, y0, z0; ring).
  refine (conj _ (conj _ _)); match goal with |- is_derive _ _ ?v => idtac end.
  1: match goal with |- is_derive _ _ ?v => change (is_derive (fun e : R => (1 - 2 * (fy e * fy e + fz e * fz e) / nn e) * pa e +
       2 * (fx e * fy e - fw e * fz e) / nn e * pb e + 2 * (fx e * fz e + fw e * fy e) / nn e * pc e) 0 v) end.
  2: match goal with |- is_derive _ _ ?v => change (is_derive (fun e : R => 2 * (fx e * fy e + fw e * fz e) / nn e * pa e +
       (1 - 2 * (fx e * fx e + fz e * fz e) / nn e) * pb e + 2 * (fy e * fz e - fw e * fx e) / nn e * pc e) 0 v) end.
  3: match goal with |- is_derive _ _ ?v => change (is_derive (fun e : R => 2 * (fx e * fz e - fw e * fy e) / nn e * pa e +
       2 * (fy e * fz e + fw e * fx e) / nn e * pb e + (1 - 2 * (fx e * fx e + fy e * fy e) / nn e) * pc e) 0 v) end.
  all: clearbody fw fx fy fz pa pb pc nn; auto_derive; [repeat split; try (eexists; eassumption); try lra|].
  all: change (Derive (fun x => fw x) 0) with (Derive fw 0); change (Derive (fun x => fx x) 0) with (Derive fx 0);
    change (Derive (fun x => fy x) 0) with (Derive fy 0); change (Derive (fun x => fz x) 0) with (Derive fz 0);
    change (Derive (fun x => pa x) 0) with (Derive pa 0); change (Derive (fun x => pb x) 0) with (Derive pb 0);
    change (Derive (fun x => pc x) 0) with (Derive pc 0); change (Derive (fun x => nn x) 0) with (Derive nn 0).
  all: rewrite ?w0, ?x0, ?y0, ?z0, ?n0, ?Dw, ?Dx, ?Dy, ?Dz, ?Da, ?Db, ?Dc, ?Dn. all: match goal with |- @eq _ ?a ?b => change (@eq R a b) end; simpl; field.
Qed.
Lemma turn_trans u e : mtrans (turn u e) = turn (vneg u) e.
Proof.
  unfold turn, qnorm2, rvs, dot. cbv zeta. cbn [qw qx qy qz vneg vx vy vz].
  replace (- vx u * - vx u + - vy u * - vy u + - vz u * - vz u) with (vx u * vx u + vy u * vy u + vz u * vz u) by ring.
  set (m := e * e * _ * (1 / 4)). set (cs := 1 - m / 2 * _). set (sn := 1 - m / 6 * _).
  replace (1 / 2 * sn * (e * - vx u)) with (- (1 / 2 * sn * (e * vx u))) by ring.
  replace (1 / 2 * sn * (e * - vy u)) with (- (1 / 2 * sn * (e * vy u))) by ring.
  replace (1 / 2 * sn * (e * - vz u)) with (- (1 / 2 * sn * (e * vz u))) by ring.
  set (x := 1 / 2 * sn * (e * vx u)). set (y := 1 / 2 * sn * (e * vy u)). set (z := 1 / 2 * sn * (e * vz u)).
  replace (cs * cs + - x * - x + - y * - y + - z * - z) with (cs * cs + x * x + y * y + z * z) by ring.
  unfold mtrans, Rdiv. cbn [m00 m01 m02 m10 m11 m12 m20 m21 m22]. apply mat_ext; cbn [m00 m01 m02 m10 m11 m12 m20 m21 m22]; ring.
Qed.
Lemma turn_zero u : turn u 0 = eye.
Proof. unfold turn, qnorm2, rvs. cbv zeta. cbn [qw qx qy qz]. apply mat_ext; simpl; field. Qed.

Lemma cne_vec (la lo : R -> R) lat lon d p p0 dp :
  is_derive la 0 (vy d) -> is_derive lo 0 (- vx d / cos lat) -> la 0 = lat -> lo 0 = lon -> cos lat <> 0 -> vz d = - vx d * tan lat ->
  vdiff p dp -> p 0 = p0 ->
  vdiff (fun e => mvec (lla_to_cne (la e) (lo e)) (p e)) (mvec (lla_to_cne lat lon) (vsub dp (cross d p0))).
Proof.
  intros L O <- <- Hc Hz (A & B & C) <-. unfold tan in Hz.
  unfold vdiff, lla_to_cne, mvec, vsub, cross. cbn [vx vy vz m00 m01 m02 m10 m11 m12 m20 m21 m22]. rewrite Hz.
  set (pa := fun e : R => vx (p e)) in *. set (pb := fun e : R => vy (p e)) in *. set (pc := fun e : R => vz (p e)) in *.
  change (vx (p 0)) with (pa 0). change (vy (p 0)) with (pb 0). change (vz (p 0)) with (pc 0).
  change (is_derive pa 0 (vx dp)) in A. change (is_derive pb 0 (vy dp)) in B. change (is_derive pc 0 (vz dp)) in C.
  assert (Dl : Derive la 0 = vy d) by (apply is_derive_unique; exact L). assert (Do : Derive lo 0 = - vx d / cos (la 0)) by (apply is_derive_unique; exact O).
  assert (Da : Derive pa 0 = vx dp) by (apply is_derive_unique; exact A). assert (Db : Derive pb 0 = vy dp) by (apply is_derive_unique; exact B).
  assert (Dc : Derive pc 0 = vz dp) by (apply is_derive_unique; exact C).
  refine (conj _ (conj _ _)).
  1: match goal with |- is_derive _ _ ?v => change (is_derive (fun e : R => - sin (la e) * cos (lo e) * pa e + - sin (lo e) * pb e + - cos (la e) * cos (lo e) * pc e) 0 v) end.
  2: match goal with |- is_derive _ _ ?v => change (is_derive (fun e : R => - sin (la e) * sin (lo e) * pa e + cos (lo e) * pb e + - cos (la e) * sin (lo e) * pc e) 0 v) end.
  3: match goal with |- is_derive _ _ ?v => change (is_derive (fun e : R => cos (la e) * pa e + 0 * pb e + - sin (la e) * pc e) 0 v) end.
  all: clearbody pa pb pc; auto_derive; [repeat split; try (eexists; eassumption); try lra|].
  all: change (Derive (fun x => la x) 0) with (Derive la 0); change (Derive (fun x => lo x) 0) with (Derive lo 0);
    change (Derive (fun x => pa x) 0) with (Derive pa 0); change (Derive (fun x => pb x) 0) with (Derive pb 0);
    change (Derive (fun x => pc x) 0) with (Derive pc 0).
  all: rewrite ?Dl, ?Do, ?Da, ?Db, ?Dc; match goal with |- @eq _ ?a ?b => change (@eq R a b) end; simpl.
  all: assert (T := sin2_cos2 (la 0)); unfold Rsqr in T.
  - field_simplify; [|assumption|assumption]. f_equal.
    replace (cos (la 0) ^ 2) with (1 - sin (la 0) * sin (la 0)) by (simpl; lra). ring.
  - field_simplify; [|assumption|assumption]. f_equal.
    replace (cos (la 0) ^ 2) with (1 - sin (la 0) * sin (la 0)) by (simpl; lra). ring.
  - field. assumption.
Qed.

Lemma frame_turn_scale lat h e x : frame_turn lat h (vscale e x) = vscale e (frame_turn lat h x).
Proof. unfold frame_turn, vscale. cbn [vx vy vz]. f_equal; unfold Rdiv; ring. Qed.

Lemma near_and (P S : R -> Prop) : (exists r, 0 < r /\ forall e, Rabs e < r -> P e) -> (exists r, 0 < r /\ forall e, Rabs e < r -> S e) ->
  exists r, 0 < r /\ forall e, Rabs e < r -> P e /\ S e.
Proof.
  intros (r & A & B) (q & C & D). exists (Rmin r q). split. { apply Rmin_pos; assumption. }
  intros e H. split; [apply B|apply D]; (eapply Rlt_le_trans; [exact H|]); [apply Rmin_l|apply Rmin_r].
Qed.
Lemma turned_pos lat lon h d : place_ok lat lon h -> exists r, 0 < r /\ forall e, Rabs e < r -> 0 < qw (turned lat lon d e).
Proof.
  intros P. destruct (half_angles _ _ _ P) as (C1 & C2 & _). assert (DW := turned_w lat lon d). cbv zeta in DW.
  assert (W0 : 0 < qw (turned lat lon d 0)). { rewrite turned_0. simpl. apply Rmult_lt_0_compat; assumption. }
  assert (CT : continuous (fun e : R => qw (turned lat lon d e)) 0). { apply (@ex_derive_continuous R_AbsRing R_NormedModule). eexists. exact DW. }
  destruct (CT (fun y => 0 < y)) as [r H].
  - exists (mkposreal _ W0). intros y Hy. unfold ball in Hy; simpl in Hy. unfold AbsRing_ball, abs, minus, plus, opp in Hy; simpl in Hy.
    apply Rabs_def2 in Hy. lra.
  - exists r. split; [apply cond_pos|]. intros e He. apply H. unfold ball; simpl. unfold AbsRing_ball, abs, minus, plus, opp; simpl.
    replace (e + - 0) with e by ring. exact He.
Qed.

Lemma feedback_small s x lat lon h : agrees s lat lon h ->
  let d := frame_turn lat h (x_pos x) in
  exists r, 0 < r /\ forall e, Rabs e < r -> exists t, feedback s (err_scale e x) = Some t /\
    n_pos (s_nav t) = V (lat_of (turned lat lon d e)) (lon_of (turned lat lon d e)) (h + e * vz (x_pos x)) /\
    n_vn (s_nav t) = mvec (madd eye (skew (vscale e d))) (vsub (n_vn (s_nav s)) (vscale e (x_vel x))) /\
    n_Cbn (s_nav t) = mmul (turn (vadd (x_att x) d) e) (n_Cbn (s_nav s)) /\
    n_Cne (s_nav t) = n_Cne (s_nav s) /\ n_gb (s_nav t) = vadd (n_gb (s_nav s)) (vscale e (x_gb x)) /\
    s_gyro_pre t = s_gyro_pre s /\ s_wie t = s_wie s /\ s_wen t = s_wen s /\ s_dt t = s_dt s.
Proof.
  intros (P & Hp & HQ & Hu & HC) d.
  destruct (near_and _ _ (small_near (vneg d)) (near_and _ _ (small_near (vadd (x_att x) d)) (turned_pos lat lon h d P))) as (r & Hr & H).
  exists r. split; [exact Hr|]. intros e He. destruct (H e He) as (A & B & C).
  unfold feedback. cbv zeta. rewrite Hp, (place_rates _ _ _ P), HQ. cbn [vx vy vz err_scale x_pos x_vel x_att x_gb x_ab].
  change (V (vy (vscale e (x_pos x)) / (RN lat + h)) (- vx (vscale e (x_pos x)) / (RM lat + h)) (- vy (vscale e (x_pos x)) * tan lat / (RN lat + h)))
    with (frame_turn lat h (vscale e (x_pos x))).
  rewrite frame_turn_scale. fold d.
  replace (vneg (vscale e d)) with (vscale e (vneg d)) by (destruct d; vring).
  rewrite (rv_small _ _ A). change (qmul (lla_to_qne lat lon) (rvs (vneg d) e)) with (turned lat lon d e).
  rewrite (lla_opt_ratio _ C). cbn [bind fst snd].
  replace (vadd (vscale e (x_att x)) (vscale e d)) with (vscale e (vadd (x_att x) d)) by (destruct d, (x_att x); vring).
  rewrite normalized_mul by (try apply rv_norm_pos; assumption).
  eexists. split; [reflexivity|].
  assert (T : quaternion_to_dcm (qmul (qnormalized (rv_to_quaternion (vscale e (vadd (x_att x) d)))) (n_Qbn (s_nav s))) =
    mmul (turn (vadd (x_att x) d) e) (n_Cbn (s_nav s))).
  { rewrite dcm_mul; [|apply qnormalized_unit, rv_norm_pos|exact Hu]. rewrite turn_dcm by exact B. rewrite HC. reflexivity. }
  cbn [s_nav n_pos n_vn n_Cbn n_Cne n_gb nav_bias nav_turn nav_vel nav_place s_gyro_pre s_wie s_wen s_dt]. rewrite T.
  repeat split; reflexivity.
Qed.
