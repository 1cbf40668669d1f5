(** Innovations at any state, every reachable state, and how the slip grows (C75-C77, C145). *)
From Coq Require Import Reals Lra Psatz List.
From Coquelicot Require Import Coquelicot.
From Verif Require Import RealMath EarthModel ConvertModel ConvertSpec ConvertProofs EarthProofs MathWrap SmoothModel
  InsModel InsProofs InsRest InsRest2 FusionBase FusionSpec JacobianSpec JacobianBase JacobianProofs JacobianMain WanderSpec WanderProofs.
Import ListNotations.
Open Scope R_scope.

Lemma cne_undo lat lon v : mvec (mtrans (lla_to_cne lat lon)) (mvec (lla_to_cne lat lon) v) = v.
Proof.
  rewrite <- mvec_mmul, <- qne_dcm. destruct (dcm_rotation (lla_to_qne lat lon) (qne_unit lat lon)) as [O _]. rewrite O, mvec_eye. reflexivity.
Qed.
Lemma position_innovation_any s x lat lon h lb fix_at : located s lat lon h ->
  moves (after s x (fun t => pos_z t lb fix_at)) (pos_z s lb fix_at)
    (vsub (cross (vadd (x_att x) (frame_turn lat h (x_pos x))) (mvec (n_Cbn (s_nav s)) lb))
          (mvec (mtrans (n_Cne (s_nav s))) (local_vector lat lon (slipped s lat lon h (x_pos x))))).
Proof.
  intros A. destruct (place_moves_any s x lat lon h A) as (g & Hg & G0 & Gd).
  set (d := frame_turn lat h (x_pos x)). set (w := mvec (n_Cbn (s_nav s)) lb). set (u := vadd (x_att x) d).
  set (y := local_vector lat lon (slipped s lat lon h (x_pos x))) in *.
  apply (moves_intro s x (fun t => pos_z t lb fix_at) (fun e => vadd (mvec (mtrans (n_Cne (s_nav s))) (vsub (g e) (lla_to_xyz fix_at))) (mvec (turn u e) w))).
  - destruct (near_and _ _ Hg (feedback_near s x lat lon h A)) as (r & Hr & H). exists r. split; [exact Hr|].
    intros e He. destruct (H e He) as (K & t & lo & F & _ & _ & _ & Tc & Tn & _). exists t. split; [exact F|].
    unfold after in K. rewrite F in K. simpl in K. injection K as K.
    unfold pos_z. cbv zeta. rewrite Tc, Tn, mvec_mmul. unfold earth_place in K. rewrite K. reflexivity.
  - cbv beta. rewrite turn_zero, mvec_eye, G0. reflexivity.
  - replace (vsub (cross u w) (mvec (mtrans (n_Cne (s_nav s))) y)) with
      (vadd (mvec (mtrans (n_Cne (s_nav s))) (vsub (vneg y) vzero)) (vadd (cross u w) vzero))
      by (destruct (mtrans (n_Cne (s_nav s))), y, (cross u w); apply vec_ext; simpl; ring).
    apply vdiff_add; [apply vdiff_mvec, vdiff_sub; [|apply vdiff_const]|apply (turn_vec _ (fun _ => w) w); [apply vdiff_const|reflexivity]].
    destruct Gd as (D1 & D2 & D3). refine (conj _ (conj _ _)); apply is_derive_Reals; assumption.
Qed.
Lemma position_innovation_fresh s x lat lon h lb fix_at : located s lat lon h -> n_Cne (s_nav s) = lla_to_cne lat lon ->
  moves (after s x (fun t => pos_z t lb fix_at)) (pos_z s lb fix_at)
    (vneg (vadd (design (pos_h s lb) x) (vadd (cross (mvec (n_Cbn (s_nav s)) lb) (frame_turn lat h (x_pos x)))
       (vscale (slip (n_Qne (s_nav s))) (slip_shift lat lon h (x_pos x)))))).
Proof.
  intros A Hn. assert (B := position_innovation_any s x lat lon h lb fix_at A). rewrite Hn, local_cne, cne_undo in B.
  match type of B with moves _ _ ?a => match goal with |- moves _ _ ?b => replace b with a; [exact B|] end end.
  unfold slipped, design, pos_h. set (d := frame_turn _ _ _). set (w := mvec _ lb). set (k := slip _). set (p := slip_shift _ _ _ _).
  destruct d, w, p, (x_pos x), (x_att x), (x_vel x), (x_gb x), (x_ab x). apply vec_ext; simpl; ring.
Qed.

Lemma wheel_innovation_any s x lat lon h o : located s lat lon h -> o_rate o * s_dt s = 1 ->
  let turn_all := vadd (x_att x) (frame_turn lat h (x_pos x)) in
  moves (after s x (fun t => wheel_velocity (rebiased s t) o)) (wheel_velocity s o)
    (vsub (mvec (Cbv o) (cross (mvec (mtrans (n_Cbn (s_nav s))) (cross turn_all (vadd (s_wie s) (s_wen s)))) (o_lb_wheel o)))
          (design (vel_h s o) x)).
Proof.
  intros A Hr u. set (d := frame_turn lat h (x_pos x)). set (C := n_Cbn (s_nav s)). set (W := vadd (s_wie s) (s_wen s)).
  set (v := n_vn (s_nav s)). set (lb := o_lb_wheel o).
  set (vel := fun e => mvec (madd eye (skew (vscale e d))) (vsub v (vscale e (x_vel x)))).
  set (g := fun e => vadd (mvec (Cbv o) (mvec (mtrans C) (mvec (turn (vneg u) e) (vel e))))
     (mvec (Cbv o) (cross (vsub (vadd (vscale (o_rate o) (s_gyro_pre s)) (vscale e (vneg (x_gb x)))) (mvec (mtrans C) (mvec (turn (vneg u) e) W))) lb))).
  assert (W0 : wheel_velocity (rebiased s s) o = wheel_velocity s o).
  { unfold wheel_velocity, rebiased. cbv zeta. cbn [s_nav s_gyro_pre s_wie s_wen].
    replace (vsub (s_gyro_pre s) (vscale (s_dt s) (vsub (n_gb (s_nav s)) (n_gb (s_nav s))))) with (s_gyro_pre s); [reflexivity|].
    destruct (s_gyro_pre s), (n_gb (s_nav s)); vring. }
  rewrite <- W0 at 1.
  apply (moves_intro s x (fun t => wheel_velocity (rebiased s t) o) g).
  - destruct (feedback_near s x lat lon h A) as (r & Hr' & H). exists r. split; [exact Hr'|]. intros e He.
    destruct (H e He) as (t & lo & F & _ & _ & Tv & Tc & _ & Tg & G & I & N & D & _). exists t. split; [exact F|].
    unfold wheel_velocity, rebiased. cbv zeta. cbn [s_nav s_gyro_pre s_wie s_wen]. rewrite Tv, Tc, Tg, G, I, N. fold d C v W. fold u.
    unfold g, vel. rewrite mtrans_mmul, turn_trans, !mvec_mmul. do 3 f_equal.
    f_equal. destruct (s_gyro_pre s) as [ga gb gc], (x_gb x) as [xa xb xc], (n_gb (s_nav s)) as [na nb nc]. apply vec_ext; simpl.
    + transitivity (o_rate o * ga - e * (o_rate o * s_dt s) * xa); [ring|rewrite Hr; ring].
    + transitivity (o_rate o * gb - e * (o_rate o * s_dt s) * xb); [ring|rewrite Hr; ring].
    + transitivity (o_rate o * gc - e * (o_rate o * s_dt s) * xc); [ring|rewrite Hr; ring].
  - cbv beta. rewrite W0. unfold g, vel. rewrite turn_zero, !mvec_eye, vn_start. unfold wheel_velocity. cbv zeta. fold C v W lb. rewrite mvec_mmul.
    do 4 f_equal. destruct (s_gyro_pre s), (x_gb x); vring.
  - assert (V0 : vel 0 = v) by apply vn_start.
    assert (D1 := turn_vec (vneg u) vel v _ (vn_moves d v (x_vel x)) V0).
    assert (D2 := turn_vec (vneg u) (fun _ => W) W vzero (vdiff_const W) eq_refl).
    replace (vsub (mvec (Cbv o) (cross (mvec (mtrans C) (cross u W)) lb)) (design (vel_h s o) x)) with
      (vadd (mvec (Cbv o) (mvec (mtrans C) (vadd (cross (vneg u) v) (vsub (cross d v) (x_vel x)))))
        (mvec (Cbv o) (cross (vsub (vneg (x_gb x)) (mvec (mtrans C) (vadd (cross (vneg u) W) vzero))) lb))).
    + unfold g. apply vdiff_add; apply vdiff_mvec.
      * apply vdiff_mvec. exact D1.
      * apply vdiff_cross, vdiff_sub; [apply vdiff_line|apply vdiff_mvec; exact D2].
    + unfold design, vel_h. cbv zeta. fold C v lb. unfold u. fold d. generalize (Cbv o) as B. intros B. clearbody d C W v lb.
      destruct B, C, W, v, lb, d, (x_pos x), (x_att x), (x_vel x), (x_gb x), (x_ab x). apply vec_ext; simpl; ring.
Qed.
Lemma zupt_innovation_any s x lat lon h : located s lat lon h ->
  moves (after s x (fun t => n_vn (s_nav t))) (n_vn (s_nav s))
    (vsub (cross (frame_turn lat h (x_pos x)) (n_vn (s_nav s))) (design zupt_h x)).
Proof.
  intros A. set (d := frame_turn lat h (x_pos x)).
  apply (moves_intro s x (fun t => n_vn (s_nav t)) (fun e => mvec (madd eye (skew (vscale e d))) (vsub (n_vn (s_nav s)) (vscale e (x_vel x))))).
  - destruct (feedback_near s x lat lon h A) as (r & Hr & H). exists r. split; [exact Hr|]. intros e He.
    destruct (H e He) as (t & lo & F & _ & _ & Tv & _). exists t. split; [exact F|exact Tv].
  - apply vn_start.
  - replace (vsub (cross d (n_vn (s_nav s))) (design zupt_h x)) with (vsub (cross d (n_vn (s_nav s))) (x_vel x)); [apply vn_moves|].
    unfold design, zupt_h. destruct (x_pos x), (x_att x), (x_vel x), (x_gb x), (x_ab x), (cross d (n_vn (s_nav s))). apply vec_ext; simpl; ring.
Qed.

(** ** every reachable state *)
Definition reads (s : ins) : Prop :=
  lla_opt (n_Qne (s_nav s)) = Some (vx (n_pos (s_nav s)), vy (n_pos (s_nav s))) /\ qnorm2 (n_Qne (s_nav s)) = 1 /\ sound_attitude (s_nav s).
Lemma reads_located s : reads s -> rates_defined (n_pos (s_nav s)) = true ->
  located s (vx (n_pos (s_nav s))) (vy (n_pos (s_nav s))) (vz (n_pos (s_nav s))).
Proof.
  intros (A & B & C & D) E. unfold rates_defined in E. unfold located.
  destruct (Req_EM_T (cos (vx (n_pos (s_nav s)))) 0); [discriminate|].
  destruct (Req_EM_T (RN (vx (n_pos (s_nav s))) + vz (n_pos (s_nav s))) 0); [discriminate|].
  destruct (Req_EM_T (RM (vx (n_pos (s_nav s))) + vz (n_pos (s_nav s))) 0); [discriminate|].
  repeat split; try assumption. destruct (n_pos (s_nav s)); reflexivity.
Qed.
Lemma init_reads s0 gpst lat lon h vn atti rate : place_ok lat lon h ->
  reads (init_pva s0 (make_nav gpst (V lat lon h) vn atti) rate).
Proof.
  intros P. destruct (make_nav_sound gpst (V lat lon h) vn atti) as [A B]. repeat split; try exact A; try exact B.
  - simpl. apply (lla_opt_place _ _ _ P).
  - simpl. apply qne_unit.
Qed.
Lemma forward_reads s x t : forward s x = Some t -> qnorm2 (n_Qne (s_nav s)) = 1 -> sound_attitude (s_nav s) ->
  reads t /\ n_Cne (s_nav t) = lla_to_cne (vx (n_pos (s_nav t))) (vy (n_pos (s_nav t))).
Proof.
  intros H B C. destruct (forward_attitude _ _ _ H C) as (D & _ & E).
  split; [|exact E]. unfold reads. cut (lla_opt (n_Qne (s_nav t)) = Some (vx (n_pos (s_nav t)), vy (n_pos (s_nav t))) /\ qnorm2 (n_Qne (s_nav t)) = 1); [tauto|].
  clear D E. unfold forward, mechanise in H. apply bind_some in H as (m & H & E). injection E as <-.
  apply bind_some in H as (s1 & H1 & H). apply bind_some in H as (s2 & H2 & H). apply bind_some in H as (s3 & H3 & H).
  injection H as <-. apply extrapolate_nav in H1 as [N1 _]. apply velocity_nav in H2 as (vn & dvn & vf & N2).
  unfold atti_update. cbv zeta. cbn [s_nav nav_time nav_turn n_Qne n_pos].
  unfold position_update in H3. cbv zeta in H3. apply bind_some in H3 as (l & L & H3). apply bind_some in H3 as (w & _ & H3). injection H3 as <-.
  cbn [s_nav nav_place n_Qne n_pos vx vy]. split. { rewrite L. destruct l; reflexivity. }
  apply qnormalized_unit, qnorm2_pos_mul; [apply qnorm2_pos_mul|apply rv_norm_pos].
  - rewrite qnorm2_conj. apply rv_norm_pos.
  - rewrite N2, N1. cbn [nav_vel n_Qne]. lra.
Qed.
Lemma feedback_reads s x t : feedback s x = Some t -> qnorm2 (n_Qne (s_nav s)) = 1 -> sound_attitude (s_nav s) -> reads t.
Proof.
  intros H B C. destruct (feedback_attitude _ _ _ H C) as (D & _). unfold reads.
  cut (lla_opt (n_Qne (s_nav t)) = Some (vx (n_pos (s_nav t)), vy (n_pos (s_nav t))) /\ qnorm2 (n_Qne (s_nav t)) = 1); [tauto|]. clear D.
  unfold feedback in H. cbv zeta in H. destruct (rates_defined _); [|discriminate]. apply bind_some in H as (l & L & H). injection H as <-.
  cbn [s_nav nav_bias nav_turn nav_vel nav_place n_Qne n_pos vx vy]. split. { rewrite L. destruct l; reflexivity. }
  apply qnormalized_unit, qnorm2_pos_mul; [lra|apply rv_norm_pos].
Qed.
Lemma run_reads ops : forall s t, ins_run s ops = Some t -> qnorm2 (n_Qne (s_nav s)) = 1 -> sound_attitude (s_nav s) -> ops <> [] -> reads t.
Proof.
  induction ops as [|o r IH]; intros s t H B C K; [congruence|].
  simpl in H. apply bind_some in H as (u & H1 & H2).
  assert (X : reads u). { destruct o; simpl in H1; [apply forward_reads in H1; tauto|apply feedback_reads in H1; assumption]. }
  destruct r; [injection H2 as <-; exact X|]. destruct X as (X1 & X2 & X3). apply (IH u t H2 X2 X3). discriminate.
Qed.
(** every state reached by samples and corrections *)
Lemma history_located s0 gpst pos vn atti rate ops s :
  ins_run (init_pva s0 (make_nav gpst pos vn atti) rate) ops = Some s -> ops <> [] -> rates_defined (n_pos (s_nav s)) = true ->
  located s (vx (n_pos (s_nav s))) (vy (n_pos (s_nav s))) (vz (n_pos (s_nav s))).
Proof.
  intros H K D. apply reads_located; [|exact D]. apply (run_reads ops _ _ H); try assumption.
  - simpl. apply qne_unit.
  - apply make_nav_sound.
Qed.
Lemma init_located s0 gpst lat lon h vn atti rate : place_ok lat lon h ->
  let s := init_pva s0 (make_nav gpst (V lat lon h) vn atti) rate in located s lat lon h /\ slip (n_Qne (s_nav s)) = 0.
Proof.
  intros P s. split.
  - assert (A := reads_located s (init_reads s0 gpst lat lon h vn atti rate P) (place_rates _ _ _ P)). exact A.
  - simpl. unfold slip, lla_to_qne. cbn [qw qx qy qz]. unfold Rdiv. ring.
Qed.
Lemma run_snoc ops : forall s o t, ins_run s (ops ++ [o]) = Some t -> exists u, ins_run s ops = Some u /\ ins_do u o = Some t.
Proof.
  induction ops as [|a r IH]; intros s o t H; simpl in *.
  - apply bind_some in H as (u & H1 & H2). injection H2 as <-. eauto.
  - apply bind_some in H as (u & H1 & H2). rewrite H1. simpl. apply IH, H2.
Qed.
Lemma history_fresh s0 gpst pos vn atti rate ops x s :
  ins_run (init_pva s0 (make_nav gpst pos vn atti) rate) (ops ++ [OpSample x]) = Some s ->
  n_Cne (s_nav s) = lla_to_cne (vx (n_pos (s_nav s))) (vy (n_pos (s_nav s))).
Proof.
  intros H. apply run_snoc in H as (u & H1 & H2). simpl in H2.
  destruct (run_attitude _ _ _ H1 (make_nav_sound _ _ _ _)) as [A _]. apply forward_attitude in H2; tauto.
Qed.

(** ** the slip after a small correction *)
Lemma slip_scale q n : n <> 0 -> slip (Q (qw q / n) (qx q / n) (qy q / n) (qz q / n)) = slip q.
Proof.
  intros N. unfold slip. cbn [qw qx qy qz]. destruct (Req_EM_T (qw q) 0) as [Z|Z]; [|field; split; assumption].
  rewrite Z. unfold Rdiv. rewrite !Rmult_0_l, Rinv_0. ring.
Qed.
Lemma slip_normalized q : slip (qnormalized q) = slip q.
Proof.
  unfold qnormalized. cbv zeta. destruct (Rlt_dec 0 (qnorm2 q)) as [N|]; [|reflexivity]. apply slip_scale.
  apply Rgt_not_eq, sqrt_lt_R0, N.
Qed.
Lemma spun_slip q d : qw q <> 0 -> cos (lat_of q) <> 0 -> vz d = - vx d * tan (lat_of q) ->
  is_derive (fun e => slip (spun q d e)) 0 (- slip q * (slip q / 2 * vx d + qy q / qw q * vy d)).
Proof.
  intros W C T. destruct (lat_half q) as [SL CL].
  assert (Dw := spun_w q d). assert (Dx := spun_x q d). assert (Dy := spun_y q d). assert (Dz := spun_z q d).
  set (a := qy q / qw q) in *. set (b := qz q / qw q).
  assert (Y : qy q = qw q * a) by (unfold a; field; exact W). assert (Z : qz q = qw q * b) by (unfold b; field; exact W).
  set (k := slip q) in *. assert (X : qx q = qw q * (k - a * b)) by (unfold k, slip, a, b; field; exact W).
  assert (A1 : 0 < 1 + a * a) by nra.
  assert (A0 : a <> 0). { intro Z0. apply C. rewrite CL, Z0. field; lra. }
  assert (T' : vz d = - vx d * ((1 - a * a) / (2 * a))). { rewrite T. unfold tan. rewrite SL, CL. field. repeat split; lra. }
  unfold slip.
  assert (w0 : qw (spun q d 0) = qw q) by (rewrite spun_0; reflexivity). assert (x0 : qx (spun q d 0) = qx q) by (rewrite spun_0; reflexivity).
  assert (y0 : qy (spun q d 0) = qy q) by (rewrite spun_0; reflexivity). assert (z0 : qz (spun q d 0) = qz q) by (rewrite spun_0; reflexivity).
  set (fw := fun e : R => qw (spun q d e)) in *. set (fx := fun e : R => qx (spun q d e)) in *.
  set (fy := fun e : R => qy (spun q d e)) in *. set (fz := fun e : R => qz (spun q d e)) in *.
  change (fw 0 = qw q) in w0. change (fx 0 = qx q) in x0. change (fy 0 = qy q) in y0. change (fz 0 = qz q) in z0.
  match type of Dw with is_derive _ _ ?v => change (is_derive fw 0 v) in Dw; apply is_derive_unique in Dw as Ew end.
  match type of Dx with is_derive _ _ ?v => change (is_derive fx 0 v) in Dx; apply is_derive_unique in Dx as Ex end.
  match type of Dy with is_derive _ _ ?v => change (is_derive fy 0 v) in Dy; apply is_derive_unique in Dy as Ey end.
  match type of Dz with is_derive _ _ ?v => change (is_derive fz 0 v) in Dz; apply is_derive_unique in Dz as Ez end.
  match goal with |- is_derive _ _ ?v => change (is_derive (fun e : R => (fw e * fx e + fy e * fz e) / (fw e * fw e)) 0 v) end.
  clearbody fw fx fy fz a b k. auto_derive; [repeat split; try (eexists; eassumption); rewrite w0; nra|].
  change (Derive (fun x => fw x) 0) with (Derive fw 0); change (Derive (fun x => fx x) 0) with (Derive fx 0);
    change (Derive (fun x => fy x) 0) with (Derive fy 0); change (Derive (fun x => fz x) 0) with (Derive fz 0).
  rewrite Ew, Ex, Ey, Ez, w0, x0, y0, z0, X, Y, Z, T'. match goal with |- @eq _ ?a ?b => change (@eq R a b) end. field. split; assumption.
Qed.
Lemma slip_moves s x lat lon h : located s lat lon h ->
  let k := slip (n_Qne (s_nav s)) in let d := frame_turn lat h (x_pos x) in
  exists g : R -> R, (exists r, 0 < r /\ forall e, Rabs e < r -> exists t, feedback s (err_scale e x) = Some t /\ slip (n_Qne (s_nav t)) = g e) /\
    g 0 = k /\ derivable_pt_lim g 0 (k * (tan (PI / 4 + lat / 2) * vy d - k / 2 * vx d)).
Proof.
  intros A k d. destruct (spun_moves s x lat lon h A) as (W & L0 & _).
  set (q := n_Qne (s_nav s)) in *. exists (fun e => slip (spun q d e)). split; [|split].
  - destruct (feedback_near s x lat lon h A) as (r & Hr & H). exists r. split; [exact Hr|]. intros e He.
    destruct (H e He) as (t & lo & F & _ & _ & _ & _ & _ & _ & _ & _ & _ & _ & E). exists t. split; [exact F|]. rewrite E. apply slip_normalized.
  - rewrite spun_0. reflexivity.
  - apply is_derive_Reals. destruct A as (_ & _ & _ & C & _).
    assert (S := spun_slip q d W). rewrite L0 in S. specialize (S C (frame_turn_z _ _ _)).
    replace (k * (tan (PI / 4 + lat / 2) * vy d - k / 2 * vx d)) with (- slip q * (slip q / 2 * vx d + qy q / qw q * vy d)); [exact S|].
    replace (tan (PI / 4 + lat / 2)) with (- (qy q / qw q)); [unfold k; ring|].
    rewrite <- L0. unfold lat_of. replace (PI / 4 + (- (1 / 2) * PI + -2 * atan (qy q / qw q)) / 2) with (- atan (qy q / qw q)) by field.
    unfold tan. rewrite sin_neg, cos_neg. fold (tan (atan (qy q / qw q))).
    transitivity (- (tan (atan (qy q / qw q)))); [rewrite tan_atan; reflexivity|]. unfold tan, Rdiv. ring.
Qed.
