(** One small sample solves the strapdown equations (C87). *)
From Coq Require Import Reals Lra Psatz.
From Coquelicot Require Import Coquelicot.
From Verif Require Import RealMath EarthModel ConvertModel ConvertSpec ConvertProofs EarthProofs MathWrap SmoothModel
  InsModel InsProofs InsRest InsRest2 FusionBase JacobianSpec JacobianBase JacobianProofs JacobianMain FusionSpec MotionSpec MotionBase MotionPlace MotionStep.
Open Scope R_scope.

Lemma turnq_vec uf u p p0 dp : vsm uf -> uf 0 = u -> vdiff p dp -> p 0 = p0 -> vdiff (fun e => mvec (turn (uf e) e) (p e)) (vadd (cross u p0) dp).
Proof.
  intros U U0 (A & B & C) <-. unfold turn, qnorm2. cbv zeta.
  destruct (rvq_diff uf U) as (W & X & Y & Z). rewrite U0 in X, Y, Z. unfold rvq in W, X, Y, Z. cbn [qw qx qy qz] in W, X, Y, Z.
  assert (w0 : qw (rvs (uf 0) 0) = 1) by (unfold rvs; simpl; field). assert (x0 : qx (rvs (uf 0) 0) = 0) by (unfold rvs; simpl; field).
  assert (y0 : qy (rvs (uf 0) 0) = 0) by (unfold rvs; simpl; field). assert (z0 : qz (rvs (uf 0) 0) = 0) by (unfold rvs; simpl; field).
  unfold vdiff, mvec, cross, vadd. cbn [vx vy vz m00 m01 m02 m10 m11 m12 m20 m21 m22].
  set (fw := fun e : R => qw (rvs (uf e) e)) in *. set (fx := fun e : R => qx (rvs (uf e) e)) in *.
  set (fy := fun e : R => qy (rvs (uf e) e)) in *. set (fz := fun e : R => qz (rvs (uf e) e)) in *.
  set (pa := fun e : R => vx (p e)) in *. set (pb := fun e : R => vy (p e)) in *. set (pc := fun e : R => vz (p e)) in *.
  change (vx (p 0)) with (pa 0). change (vy (p 0)) with (pb 0). change (vz (p 0)) with (pc 0).
  change (qw (rvs (uf 0) 0)) with (fw 0) in w0. change (qx (rvs (uf 0) 0)) with (fx 0) in x0. change (qy (rvs (uf 0) 0)) with (fy 0) in y0. change (qz (rvs (uf 0) 0)) with (fz 0) in z0.
  change (is_derive fw 0 0) in W. change (is_derive fx 0 (vx u / 2)) in X. change (is_derive fy 0 (vy u / 2)) in Y. change (is_derive fz 0 (vz u / 2)) in Z.
  change (is_derive pa 0 (vx dp)) in A. change (is_derive pb 0 (vy dp)) in B. change (is_derive pc 0 (vz dp)) in C.
  assert (Dw : Derive fw 0 = 0) by (apply is_derive_unique; exact W). assert (Dx : Derive fx 0 = vx u / 2) by (apply is_derive_unique; exact X).
  assert (Dy : Derive fy 0 = vy u / 2) by (apply is_derive_unique; exact Y). assert (Dz : Derive fz 0 = vz u / 2) by (apply is_derive_unique; exact Z).
  assert (Da : Derive pa 0 = vx dp) by (apply is_derive_unique; exact A). assert (Db : Derive pb 0 = vy dp) by (apply is_derive_unique; exact B).
  assert (Dc : Derive pc 0 = vz dp) by (apply is_derive_unique; exact C).
  set (nn := fun e : R => fw e * fw e + fx e * fx e + fy e * fy e + fz e * fz e).
  assert (N : is_derive nn 0 0).
  { unfold nn. auto_derive. { repeat split; eexists; eassumption. }
    change (Derive (fun x => fw x) 0) with (Derive fw 0). change (Derive (fun x => fx x) 0) with (Derive fx 0).
    change (Derive (fun x => fy x) 0) with (Derive fy 0). change (Derive (fun x => fz x) 0) with (Derive fz 0).
    rewrite w0, x0, y0, z0, Dw. ring. }
  assert (Dn : Derive nn 0 = 0) by (apply is_derive_unique; exact N). assert (n0 : nn 0 = 1) by (unfold nn; rewrite w0, x0, y0, z0; ring).
  refine (conj _ (conj _ _)); match goal with |- is_derive _ _ ?v => idtac end.
  1: match goal with |- is_derive _ _ ?v => change (is_derive (fun e : R => (1 - 2 * (fy e * fy e + fz e * fz e) / nn e) * pa e +
       2 * (fx e * fy e - fw e * fz e) / nn e * pb e + 2 * (fx e * fz e + fw e * fy e) / nn e * pc e) 0 v) end.
  2: match goal with |- is_derive _ _ ?v => change (is_derive (fun e : R => 2 * (fx e * fy e + fw e * fz e) / nn e * pa e +
       (1 - 2 * (fx e * fx e + fz e * fz e) / nn e) * pb e + 2 * (fy e * fz e - fw e * fx e) / nn e * pc e) 0 v) end.
  3: match goal with |- is_derive _ _ ?v => change (is_derive (fun e : R => 2 * (fx e * fz e - fw e * fy e) / nn e * pa e +
       2 * (fy e * fz e + fw e * fx e) / nn e * pb e + (1 - 2 * (fx e * fx e + fy e * fy e) / nn e) * pc e) 0 v) end.
  all: clearbody fw fx fy fz pa pb pc nn; auto_derive; [repeat split; try (eexists; eassumption); try lra|].
  all: change (Derive (fun x => fw x) 0) with (Derive fw 0); change (Derive (fun x => fx x) 0) with (Derive fx 0);
    change (Derive (fun x => fy x) 0) with (Derive fy 0); change (Derive (fun x => fz x) 0) with (Derive fz 0);
    change (Derive (fun x => pa x) 0) with (Derive pa 0); change (Derive (fun x => pb x) 0) with (Derive pb 0);
    change (Derive (fun x => pc x) 0) with (Derive pc 0); change (Derive (fun x => nn x) 0) with (Derive nn 0).
  all: rewrite ?w0, ?x0, ?y0, ?z0, ?n0, ?Dw, ?Dx, ?Dy, ?Dz, ?Da, ?Db, ?Dc, ?Dn. all: match goal with |- @eq _ ?a ?b => change (@eq R a b) end; simpl; field.
Qed.

Lemma placeq_dcm (a b : R -> vec) q e : qnorm2 q = 1 -> e * e * dot (a e) (a e) < PI * PI -> e * e * dot (b e) (b e) < PI * PI ->
  quaternion_to_dcm (qnormalized (placeq a b q e)) = mmul (mmul (turn (a e) e) (quaternion_to_dcm q)) (turn (b e) e).
Proof.
  intros Q1 A B. assert (NA := rv_norm_pos (vscale e (a e))). assert (NB := rv_norm_pos (vscale e (b e))).
  rewrite (rv_small _ _ A) in NA. rewrite (rv_small _ _ B) in NB.
  assert (E : qnormalized (placeq a b q e) = qmul (qmul (qnormalized (rvs (a e) e)) q) (qnormalized (rvs (b e) e))).
  { unfold placeq, rvq. set (x := rvs (a e) e) in *. set (y := rvs (b e) e) in *. unfold qnormalized. rewrite !qnorm2_mul, Q1, Rmult_1_r. cbv zeta.
    destruct (Rlt_dec 0 (qnorm2 x * qnorm2 y)) as [K|K]; [|exfalso; apply K, Rmult_lt_0_compat; assumption].
    destruct (Rlt_dec 0 (qnorm2 x)); [|lra]. destruct (Rlt_dec 0 (qnorm2 y)); [|lra].
    rewrite sqrt_mult by lra. assert (SX := sqrt_lt_R0 _ NA). assert (SY := sqrt_lt_R0 _ NB).
    set (n := sqrt (qnorm2 x)) in *. set (m := sqrt (qnorm2 y)) in *. clearbody n m. destruct x, y, q. apply quat_ext; simpl; field; split; lra. }
  rewrite E. rewrite dcm_mul; [rewrite dcm_mul| |]; try assumption; try (apply qnormalized_unit; assumption).
  - rewrite !dcm_normalized by assumption. reflexivity.
  - rewrite qnorm2_mul, Q1, qnormalized_unit by assumption. ring.
Qed.
Lemma cne_rotation lat lon : rotation (lla_to_cne lat lon).
Proof. rewrite <- qne_dcm. apply dcm_rotation, qne_unit. Qed.
Lemma cne_earth lat lon : mvec (lla_to_cne lat lon) (omega_ie_n lat) = omega_ie_e.
Proof.
  assert (T := sin2_cos2 lat). unfold Rsqr in T.
  apply vec_ext; cbn [mvec lla_to_cne omega_ie_n omega_ie_e vx vy vz m00 m01 m02 m10 m11 m12 m20 m21 m22]; try ring.
  transitivity (omega_e * (sin lat * sin lat + cos lat * cos lat)); [ring|rewrite T; ring].
Qed.

Lemma tends_intro s f0 w0 a0 t f w (v : ins -> vec) (g : R -> vec) v0 dv :
  near (fun e => e <> 0 -> exists u, forward (paced s f0 w0 a0 e) (increments t f w e) = Some u /\ v u = g e) ->
  g 0 = v0 -> vdiff g dv -> tends (stepped s f0 w0 a0 t f w v) v0 dv.
Proof.
  intros (r & Hr & H) G D. exists g. split; [|split; [exact G|apply vdiff_vderive; exact D]].
  exists r. split; [exact Hr|]. intros e Ne He. destruct (H e He Ne) as (u & F & E). unfold stepped. rewrite F. cbn [bind]. rewrite E. reflexivity.
Qed.

Section Main.
Variables (s : ins) (lat lon h : R) (f0 w0 a0 : R -> vec) (t : R) (f w : R -> vec).
Hypothesis A : agrees s lat lon h.
Hypothesis Sa : vsm a0. Hypothesis Sf0 : vsm f0. Hypothesis Sw0 : vsm w0. Hypothesis Sf : vsm f. Hypothesis Sw : vsm w.
Definition n := s_nav s.
Definition fr (e : R) := freed (f e) (n_ab n) (n_as n).
Definition wr (e : R) := freed (w e) (n_gb n) (n_gs n).
Lemma Sfr : vsm fr. Proof. apply vsm_freed. exact Sf. Qed.
Lemma Swr : vsm wr. Proof. apply vsm_freed. exact Sw. Qed.
Definition la (e : R) := lat_of (q2 lat lon h (n_vn n) a0 f0 w0 fr wr (n_Cbn n) e).
Definition lo (e : R) := lon_of (q2 lat lon h (n_vn n) a0 f0 w0 fr wr (n_Cbn n) e).
Definition P : place_ok lat lon h := proj1 A.
Lemma la_lo : la 0 = lat /\ lo 0 = lon.
Proof. unfold la, lo, q2. rewrite placeq_0. exact (lat_of_place _ _ _ P). Qed.
Lemma cos_lat : 0 < cos lat. Proof. destruct P as (B & _). apply cos_range_pos. exact B. Qed.
Lemma la_diff : is_derive la 0 (vx (n_vn n) / (RM lat + h)) /\ is_derive lo 0 (vy (n_vn n) / (RN lat + h) / cos lat).
Proof. apply q2_diff; auto using P, Sfr, Swr. Qed.
(** a local vector carried along *)
Lemma earth_tends (v : ins -> vec) (p : R -> vec) p0 dp :
  near (fun e => e <> 0 -> forall u, forward (paced s f0 w0 a0 e) (increments t f w e) = Some u ->
     n_Cbn (s_nav u) = quaternion_to_dcm (qnormalized (qb lat lon h (n_vn n) a0 f0 w0 fr wr (n_Cbn n) (n_Qbn n) e)) ->
     n_vn (s_nav u) = v2 lat lon h (n_vn n) a0 f0 w0 fr wr (n_Cbn n) e -> v u = p e) ->
  p 0 = p0 -> v s = p0 -> vdiff p dp ->
  tends (stepped s f0 w0 a0 t f w (fun u => to_earth u (v u))) (to_earth s (v s))
    (mvec (lla_to_cne lat lon) (vadd dp (cross (omega_en_n (n_vn n) (V lat lon h)) p0))).
Proof.
  intros H P0 Vs D. destruct la_lo as (L0 & O0). destruct A as (Pk & Hp & HQ & Hu & HC). assert (Cp := cos_lat).
  apply (tends_intro s f0 w0 a0 t f w (fun u => to_earth u (v u)) (fun e => mvec (lla_to_cne (la e) (lo e)) (p e))).
  - assert (N := near_two _ _ (forward_near s lat lon h f0 w0 a0 t f w A Sa Sf0 Sw0 Sf Sw) H). revert N. apply near_imp. intros e (E1 & E2) Ne.
    destruct (E1 Ne) as (u & F & E3 & E4 & E5). exists u. split; [exact F|]. unfold to_earth. rewrite E3.
    rewrite (E2 Ne u F E5 E4). reflexivity.
  - rewrite L0, O0, P0. unfold to_earth. rewrite Hp, Vs. reflexivity.
  - set (d := vneg (omega_en_n (n_vn n) (V lat lon h))).
    replace (vadd dp (cross (omega_en_n (n_vn n) (V lat lon h)) p0)) with (vsub dp (cross d p0)).
    2:{ unfold d. destruct (omega_en_n (n_vn n) (V lat lon h)), dp, p0. vring. }
    destruct la_diff as (DL & DO). apply cne_vec; try assumption; try lra.
    + replace (vy d) with (vx (n_vn n) / (RM lat + h)); [exact DL|]. unfold d, omega_en_n. simpl. unfold Rdiv. ring.
    + replace (- vx d) with (vy (n_vn n) / (RN lat + h)); [exact DO|]. unfold d, omega_en_n. simpl. unfold Rdiv. ring.
    + unfold d, omega_en_n. simpl. unfold Rdiv. ring.
Qed.
Lemma place_tends : tends (stepped s f0 w0 a0 t f w earth_place) (earth_place s) (earth_velocity s).
Proof.
  destruct la_lo as (L0 & O0). destruct A as (Pk & Hp & HQ & Hu & HC). assert (Cp := cos_lat). assert (Rr := radii lat).
  destruct la_diff as (DL & DO).
  assert (DH : is_derive (fun e => h - vz (vmid lat lon h (n_vn n) a0 f0 w0 fr wr (n_Cbn n) e) * e) 0 (- vz (n_vn n))) by (apply h2_diff; auto using Sfr, Swr).
  apply (tends_intro s f0 w0 a0 t f w earth_place (fun e => lla_to_xyz (p2 lat lon h (n_vn n) a0 f0 w0 fr wr (n_Cbn n) e))).
  - generalize (forward_near s lat lon h f0 w0 a0 t f w A Sa Sf0 Sw0 Sf Sw). apply near_imp. intros e E1 Ne.
    destruct (E1 Ne) as (u & F & E3 & E4 & E5). exists u. split; [exact F|]. unfold earth_place. rewrite E3. reflexivity.
  - rewrite p2_0 by exact Pk. unfold earth_place. rewrite Hp. reflexivity.
  - assert (X := xyz_derive _ _ _ _ _ _ lat lon h DL DO DH L0 O0). cbv zeta in X.
    unfold earth_velocity, to_earth. rewrite Hp. cbn [vx vy]. rewrite <- local_cne.
    replace (local_vector lat lon (n_vn (s_nav s))) with (vadd (vscale (vx (n_vn n) / (RM lat + h) * (RM lat + h)) (north lat lon))
       (vadd (vscale (vy (n_vn n) / (RN lat + h) / cos lat * (RN lat + h) * cos lat) (east lat lon)) (vscale (- vz (n_vn n)) (up lat lon)))).
    + apply X. ring.
    + destruct Pk as (_ & _ & Hh). unfold n. destruct (n_vn (s_nav s)) as [a b c]. cbn [vx vy vz].
      replace (a / (RM lat + h) * (RM lat + h)) with a by (field; lra).
      replace (b / (RN lat + h) / cos lat * (RN lat + h) * cos lat) with b by (field; lra).
      unfold local_vector. cbn [vx vy vz]. generalize (north lat lon) (east lat lon) (up lat lon). intros [] [] []. vring.
Qed.
Lemma velocity_tends : tends (stepped s f0 w0 a0 t f w earth_velocity) (earth_velocity s)
  (vsub (vadd (to_earth s (mvec (n_Cbn (s_nav s)) (freed (f 0) (n_ab (s_nav s)) (n_as (s_nav s))))) (earth_gravity lat lon h))
        (vscale 2 (cross omega_ie_e (earth_velocity s)))).
Proof.
  destruct A as (Pk & Hp & HQ & Hu & HC).
  assert (K := earth_tends (fun u => n_vn (s_nav u)) (v2 lat lon h (n_vn n) a0 f0 w0 fr wr (n_Cbn n)) (n_vn n) _
    ltac:(exists 1; split; [lra|]; intros; assumption) (v2_0 _ _ _ _ _ _ _ _ _ _) eq_refl ltac:(apply v2_diff; auto using Sfr, Swr)).
  match goal with |- tends _ _ ?x => match type of K with tends _ _ ?y => replace x with y; [exact K|] end end.
  rewrite acc_0 by exact Pk. unfold earth_velocity, to_earth. rewrite Hp. cbn [vx vy].
  rewrite <- (cne_earth lat lon), <- (rot_cross _ _ _ (cne_rotation lat lon)). change (freed (f 0) (n_ab (s_nav s)) (n_as (s_nav s))) with (fr 0). fold n. unfold wen0.
  replace (earth_gravity lat lon h) with (mvec (lla_to_cne lat lon) (V 0 0 (gravity lat h))).
  2:{ unfold earth_gravity, up, lla_to_cne. vring. }
  generalize (mvec (n_Cbn n) (fr 0)) (n_vn n) (omega_en_n (n_vn n) (V lat lon h)) (omega_ie_n lat) (gravity lat h) (lla_to_cne lat lon).
  intros [] [] [] [] gg []. vring.
Qed.
Lemma direction_tends v : tends (stepped s f0 w0 a0 t f w (earth_direction v)) (earth_direction v s)
  (vsub (to_earth s (mvec (n_Cbn (s_nav s)) (cross (freed (w 0) (n_gb (s_nav s)) (n_gs (s_nav s))) v))) (cross omega_ie_e (earth_direction v s))).
Proof.
  destruct A as (Pk & Hp & HQ & Hu & HC).
  set (ua := fun e => vneg (vadd (wie3 lat lon h (n_vn n) a0 f0 w0 fr wr (n_Cbn n) e) (wen3 lat lon h (n_vn n) a0 f0 w0 fr wr (n_Cbn n) e))).
  set (ub := fun e => vadd (wr e) (vscale e (vscale (1 / 12) (cross (w0 e) (wr e))))).
  assert (Ua : vsm ua) by (apply qa_sm; auto using Sfr, Swr). assert (Ub : vsm ub) by (apply qc_sm; auto using Swr).
  assert (U0 : ub 0 = wr 0) by (unfold ub; destruct (wr 0), (w0 0); vring).
  assert (A0 : ua 0 = vneg (vadd (omega_ie_n lat) (omega_en_n (n_vn n) (V lat lon h)))).
  { unfold ua. rewrite wie3_0, wen3_0 by exact Pk. reflexivity. }
  assert (D1 := turnq_vec ub (wr 0) (fun _ => v) v vzero Ub U0 (vdiff_const v) eq_refl).
  assert (D2 := vdiff_mvec (n_Cbn n) _ _ D1). cbv beta in D2.
  assert (T0 : mvec (turn (ub 0) 0) v = v) by (rewrite turn_zero; apply mvec_eye).
  assert (D3 := turnq_vec ua _ _ (mvec (n_Cbn n) v) _ Ua A0 D2 (f_equal (mvec (n_Cbn n)) T0)). cbv beta in D3.
  assert (H1 : near (fun e => e <> 0 -> forall u, forward (paced s f0 w0 a0 e) (increments t f w e) = Some u ->
     n_Cbn (s_nav u) = quaternion_to_dcm (qnormalized (qb lat lon h (n_vn n) a0 f0 w0 fr wr (n_Cbn n) (n_Qbn n) e)) ->
     n_vn (s_nav u) = v2 lat lon h (n_vn n) a0 f0 w0 fr wr (n_Cbn n) e ->
     mvec (n_Cbn (s_nav u)) v = mvec (turn (ua e) e) (mvec (n_Cbn n) (mvec (turn (ub e) e) v)))).
  { assert (N := near_two _ _ (rvq_near ua Ua) (rvq_near ub Ub)). revert N. apply near_imp. intros e (E1 & E2) Ne u F Fc Fv.
    rewrite Fc. transitivity (mvec (mmul (mmul (turn (ua e) e) (quaternion_to_dcm (n_Qbn n))) (turn (ub e) e)) v).
    - f_equal. exact (placeq_dcm ua ub _ e Hu E1 E2).
    - rewrite !mvec_mmul. f_equal. f_equal. symmetry. exact HC. }
  assert (H2 : mvec (turn (ua 0) 0) (mvec (n_Cbn n) (mvec (turn (ub 0) 0) v)) = mvec (n_Cbn n) v) by (rewrite !turn_zero, !mvec_eye; reflexivity).
  assert (K := earth_tends (fun u => mvec (n_Cbn (s_nav u)) v) (fun e => mvec (turn (ua e) e) (mvec (n_Cbn n) (mvec (turn (ub e) e) v))) (mvec (n_Cbn n) v) _
    H1 H2 eq_refl D3).
  unfold earth_direction at 1. unfold earth_direction at 1. 
  match goal with |- tends _ _ ?x => match type of K with tends _ _ ?y => replace x with y; [exact K|] end end.
  unfold earth_direction, to_earth. rewrite Hp. cbn [vx vy].
  rewrite <- (cne_earth lat lon), <- (rot_cross _ _ _ (cne_rotation lat lon)). change (freed (w 0) (n_gb (s_nav s)) (n_gs (s_nav s))) with (wr 0). fold n.
  generalize (mvec (n_Cbn n) v) (omega_en_n (n_vn n) (V lat lon h)) (omega_ie_n lat) (lla_to_cne lat lon). intros x y z c.
  replace (mvec (n_Cbn n) (vadd (cross (wr 0) v) vzero)) with (mvec (n_Cbn n) (cross (wr 0) v)) by (f_equal; destruct (cross (wr 0) v); vring).
  generalize (mvec (n_Cbn n) (cross (wr 0) v)). intros k. destruct x, y, z, c, k. vring.
Qed.
Lemma geodetic_tends : tends (stepped s f0 w0 a0 t f w (fun u => n_pos (s_nav u))) (n_pos (s_nav s))
  (V (vx (n_vn (s_nav s)) / (RM lat + h)) (vy (n_vn (s_nav s)) / (RN lat + h) / cos lat) (- vz (n_vn (s_nav s)))).
Proof.
  destruct A as (Pk & Hp & HQ & Hu & HC). destruct la_diff as (DL & DO).
  assert (DH : is_derive (fun e => h - vz (vmid lat lon h (n_vn n) a0 f0 w0 fr wr (n_Cbn n) e) * e) 0 (- vz (n_vn n))) by (apply h2_diff; auto using Sfr, Swr).
  apply (tends_intro s f0 w0 a0 t f w (fun u => n_pos (s_nav u)) (p2 lat lon h (n_vn n) a0 f0 w0 fr wr (n_Cbn n))).
  - generalize (forward_near s lat lon h f0 w0 a0 t f w A Sa Sf0 Sw0 Sf Sw). apply near_imp. intros e E1 Ne.
    destruct (E1 Ne) as (u & F & E3 & E4 & E5). exists u. split; [exact F|]. rewrite E3. reflexivity.
  - rewrite p2_0; auto using Sfr, Swr.
  - refine (conj _ (conj _ _)); cbn [vx vy vz p2]; assumption.
Qed.
End Main.
Lemma settles_vsm g : settles g -> vsm g.
Proof. intros (d & A & B & C). refine (conj _ (conj _ _)); eexists; apply is_derive_Reals; eassumption. Qed.

