(** C87 and C88 in the form of the property file. *)
From Coq Require Import Reals Lra Psatz.
From Coquelicot Require Import Coquelicot.
From Verif Require Import RealMath EarthModel ConvertModel ConvertSpec ConvertProofs EarthProofs MathWrap SmoothModel
  InsModel InsProofs InsRest InsRest2 FusionBase JacobianSpec JacobianBase JacobianProofs JacobianMain FusionSpec MotionSpec MotionBase MotionPlace MotionStep MotionMain ConingProofs.
Open Scope R_scope.

Lemma vsm_settles g : vsm g -> settles g.
Proof. intros ((a & A) & (b & B) & (c & C)). exists (V a b c). refine (conj _ (conj _ _)); apply is_derive_Reals; assumption. Qed.
Lemma linear_settles a b k : settles (fun e => linear a b (k * e)).
Proof.
  apply vsm_settles. apply vsm_add; [apply vsm_const|]. apply (vsm_scale (fun e => k * e)); [|apply vsm_const]. unfold sm. auto_derive. exact I.
Qed.
Lemma place_step s lat lon h f0 w0 a0 t f w : agrees s lat lon h -> settles a0 -> settles f0 -> settles w0 -> settles f -> settles w ->
  tends (stepped s f0 w0 a0 t f w earth_place) (earth_place s) (earth_velocity s).
Proof. intros. apply (place_tends s lat lon h); auto using settles_vsm. Qed.
Lemma geodetic_step s lat lon h f0 w0 a0 t f w : agrees s lat lon h -> settles a0 -> settles f0 -> settles w0 -> settles f -> settles w ->
  tends (stepped s f0 w0 a0 t f w (fun u => n_pos (s_nav u))) (V lat lon h)
  (V (vx (n_vn (s_nav s)) / (RM lat + h)) (vy (n_vn (s_nav s)) / ((RN lat + h) * cos lat)) (- vz (n_vn (s_nav s)))).
Proof.
  intros A. intros. assert (K := geodetic_tends s lat lon h f0 w0 a0 t f w A). destruct A as (Pk & Hp & A'). rewrite Hp in K.
  replace (vy (n_vn (s_nav s)) / ((RN lat + h) * cos lat)) with (vy (n_vn (s_nav s)) / (RN lat + h) / cos lat).
  - apply K; auto using settles_vsm.
  - destruct Pk as (P1 & _ & P3). assert (C := cos_range_pos _ P1). assert (Rr := radii lat). field. lra.
Qed.
Lemma velocity_step s lat lon h f0 w0 a0 t f w : agrees s lat lon h -> settles a0 -> settles f0 -> settles w0 -> settles f -> settles w ->
  tends (stepped s f0 w0 a0 t f w earth_velocity) (earth_velocity s)
  (vsub (vadd (to_earth s (mvec (n_Cbn (s_nav s)) (freed (f 0) (n_ab (s_nav s)) (n_as (s_nav s))))) (earth_gravity lat lon h))
        (vscale 2 (cross omega_ie_e (earth_velocity s)))).
Proof. intros. apply (velocity_tends s lat lon h); auto using settles_vsm. Qed.
Lemma direction_step s lat lon h f0 w0 a0 t f w v : agrees s lat lon h -> settles a0 -> settles f0 -> settles w0 -> settles f -> settles w ->
  tends (stepped s f0 w0 a0 t f w (earth_direction v)) (earth_direction v s)
  (vsub (to_earth s (mvec (n_Cbn (s_nav s)) (cross (freed (w 0) (n_gb (s_nav s)) (n_gs (s_nav s))) v))) (cross omega_ie_e (earth_direction v s))).
Proof. intros. apply (direction_tends s lat lon h); auto using settles_vsm. Qed.

(** what [tends] says, spelled out: the value exists for small intervals, and the quotient converges *)
Lemma tends_limit F v0 dv : tends F v0 dv -> forall eps, 0 < eps -> exists r, 0 < r /\ forall e, e <> 0 -> Rabs e < r -> exists v, F e = Some v /\
  Rabs ((vx v - vx v0) / e - vx dv) < eps /\ Rabs ((vy v - vy v0) / e - vy dv) < eps /\ Rabs ((vz v - vz v0) / e - vz dv) < eps.
Proof.
  intros (g & (r & Hr & H) & <- & (A & B & C)) eps He.
  destruct (A eps He) as (d1 & D1). destruct (B eps He) as (d2 & D2). destruct (C eps He) as (d3 & D3).
  exists (Rmin r (Rmin d1 (Rmin d2 d3))). split.
  { repeat apply Rmin_glb_lt; try apply cond_pos; exact Hr. }
  intros e Ne L.
  assert (L1 : Rabs e < r) by (eapply Rlt_le_trans; [exact L|apply Rmin_l]).
  assert (L0 : Rabs e < Rmin d1 (Rmin d2 d3)) by (eapply Rlt_le_trans; [exact L|apply Rmin_r]).
  assert (L2 : Rabs e < d1) by (eapply Rlt_le_trans; [exact L0|apply Rmin_l]).
  assert (L3 : Rabs e < Rmin d2 d3) by (eapply Rlt_le_trans; [exact L0|apply Rmin_r]).
  assert (L4 : Rabs e < d2) by (eapply Rlt_le_trans; [exact L3|apply Rmin_l]).
  assert (L5 : Rabs e < d3) by (eapply Rlt_le_trans; [exact L3|apply Rmin_r]).
  exists (g e). split; [apply H; assumption|].
  assert (X := D1 e Ne L2). assert (Y := D2 e Ne L4). assert (Z := D3 e Ne L5). rewrite Rplus_0_l in X, Y, Z. auto.
Qed.

(** manoeuvres of every kind meet the hypotheses of C88, when the interval is short *)
Lemma manoeuvre_case s lat lon h a b c d t : agrees s lat lon h -> ideal s ->
  let m := manoeuvre_of a b c d in
  exists dt s' u, 0 < dt /\ s_dt s' = dt /\ ideal s' /\ n_pos (s_nav s') = n_pos (s_nav s) /\ n_vn (s_nav s') = n_vn (s_nav s) /\
    s_gyro_pre s' = vneg (m_alpha m (- dt)) /\ s_acce_pre s' = vneg (m_beta m (- dt)) /\
    forward s' (Imu t (m_alpha m dt) (m_beta m dt)) = Some u.
Proof.
  intros A Id m.
  assert (N := forward_near s lat lon h (fun e => linear c d (- (1 / 2) * e)) (fun e => linear a b (- (1 / 2) * e)) (fun _ => vzero) t
    (fun e => linear c d (1 / 2 * e)) (fun e => linear a b (1 / 2 * e)) A (vsm_const _) (settles_vsm _ (linear_settles _ _ _)) (settles_vsm _ (linear_settles _ _ _))
    (settles_vsm _ (linear_settles _ _ _)) (settles_vsm _ (linear_settles _ _ _))). cbv zeta in N.
  destruct N as (r & Hr & H). assert (L : Rabs (r / 2) < r) by (rewrite Rabs_pos_eq; lra).
  destruct (H (r / 2) L ltac:(lra)) as (u & F & _). exists (r / 2), (paced s (fun e => linear c d (- (1 / 2) * e)) (fun e => linear a b (- (1 / 2) * e)) (fun _ => vzero) (r / 2)), u.
  split; [lra|]. split; [reflexivity|]. split; [exact Id|]. split; [reflexivity|]. split; [reflexivity|].
  unfold m, manoeuvre_of. cbn [m_alpha m_beta m_w m_f].
  split; [|split].
  - unfold paced. cbn [s_gyro_pre]. unfold linear, poly. destruct a, b. apply vec_ext; simpl; field.
  - unfold paced. cbn [s_acce_pre]. unfold linear, poly. destruct c, d. apply vec_ext; simpl; field.
  - rewrite <- F. f_equal. unfold increments. f_equal; unfold linear, poly; destruct a, b, c, d; apply vec_ext; simpl; field.
Qed.
