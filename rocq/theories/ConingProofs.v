(** Coning and sculling corrections (C88). *)
From Coq Require Import Reals Lra Psatz.
From Coquelicot Require Import Coquelicot.
From Verif Require Import RealMath EarthModel ConvertModel ConvertSpec ConvertProofs EarthProofs MathWrap SmoothModel
  InsModel InsProofs InsRest InsRest2 JacobianSpec MotionSpec.
Open Scope R_scope.

Lemma same_rate (f g d : R -> R) : (forall t, derivable_pt_lim f t (d t)) -> (forall t, derivable_pt_lim g t (d t)) -> f 0 = g 0 -> forall t, f t = g t.
Proof.
  intros F G E t.
  assert (D : forall x, is_derive (fun y => f y - g y) x zero).
  { intros x. evar_last. { apply @is_derive_minus; apply is_derive_Reals; [apply F|apply G]. } unfold minus, plus, opp, zero; simpl. ring. }
  destruct (Rtotal_order t 0) as [L|[L|L]].
  - assert (K := eq_is_derive (fun y => f y - g y) t 0 (fun x _ => D x) L). cbv beta in K. change (f t - g t = f 0 - g 0) in K. lra.
  - subst. exact E.
  - assert (K := eq_is_derive (fun y => f y - g y) 0 t (fun x _ => D x) L). cbv beta in K. change (f 0 - g 0 = f t - g t) in K. lra.
Qed.
Lemma same_changes (f g d : R -> vec) : changes f d -> changes g d -> f 0 = g 0 -> forall t, f t = g t.
Proof.
  intros F G E t. apply vec_ext.
  - apply (same_rate (fun t => vx (f t)) (fun t => vx (g t)) (fun t => vx (d t))); [apply F|apply G|rewrite E; reflexivity].
  - apply (same_rate (fun t => vy (f t)) (fun t => vy (g t)) (fun t => vy (d t))); [intros x; apply F|intros x; apply G|rewrite E; reflexivity].
  - apply (same_rate (fun t => vz (f t)) (fun t => vz (g t)) (fun t => vz (d t))); [intros x; apply F|intros x; apply G|rewrite E; reflexivity].
Qed.
Lemma changes_ext f d1 d2 : (forall t, d1 t = d2 t) -> changes f d1 -> changes f d2.
Proof. intros H C t. rewrite <- H. apply C. Qed.
(** polynomials of degree at most four *)
Definition poly (p1 p2 p3 p4 : vec) (t : R) : vec :=
  vadd (vscale t p1) (vadd (vscale (t * t) p2) (vadd (vscale (t * t * t) p3) (vscale (t * t * t * t) p4))).
Lemma poly_changes p1 p2 p3 p4 : changes (poly p1 p2 p3 p4)
  (fun t => vadd p1 (vadd (vscale (2 * t) p2) (vadd (vscale (3 * (t * t)) p3) (vscale (4 * (t * t * t)) p4)))).
Proof.
  intros t. refine (conj _ (conj _ _)); apply is_derive_Reals; unfold poly; cbn [vadd vscale vx vy vz]; auto_derive; auto; ring.
Qed.
Lemma poly_0 p1 p2 p3 p4 : poly p1 p2 p3 p4 0 = vzero. Proof. destruct p1, p2, p3, p4. unfold poly. vring. Qed.

Section Linear.
Variables (a b c d : vec) (m : manoeuvre).
Hypothesis W : forall t, m_w m t = linear a b t.
Hypothesis F : forall t, m_f m t = linear c d t.
Hypothesis I : integrals m.
Lemma alpha_is t : m_alpha m t = poly a (vscale (1 / 2) b) vzero vzero t.
Proof.
  destruct I as (A & B & S & Q & A0 & B0 & S0 & Q0). apply (same_changes _ _ (m_w m) A); [|rewrite A0, poly_0; reflexivity].
  eapply changes_ext; [|apply poly_changes]. intros x. rewrite W. unfold linear. destruct a, b. apply vec_ext; simpl; field.
Qed.
Lemma beta_is t : m_beta m t = poly c (vscale (1 / 2) d) vzero vzero t.
Proof.
  destruct I as (A & B & S & Q & A0 & B0 & S0 & Q0). apply (same_changes _ _ (m_f m) B); [|rewrite B0, poly_0; reflexivity].
  eapply changes_ext; [|apply poly_changes]. intros x. rewrite F. unfold linear. destruct c, d. apply vec_ext; simpl; field.
Qed.
Lemma sigma_is t : m_sigma m t = poly vzero vzero (vscale (1 / 12) (cross a b)) vzero t.
Proof.
  destruct I as (A & B & S & Q & A0 & B0 & S0 & Q0).
  apply (same_changes _ _ _ S); [|rewrite S0, poly_0; reflexivity].
  eapply changes_ext; [|apply poly_changes]. intros x. cbv beta. rewrite W, alpha_is. unfold linear, poly. destruct a, b. apply vec_ext; simpl; field.
Qed.
Lemma rho_is t : m_rho m t = poly vzero (vscale (1 / 2) (cross a c)) (vadd (vscale (1 / 3) (cross a d)) (vscale (1 / 6) (cross b c))) (vscale (1 / 8) (cross b d)) t.
Proof.
  destruct I as (A & B & S & Q & A0 & B0 & S0 & Q0).
  apply (same_changes _ _ _ Q); [|rewrite Q0, poly_0; reflexivity].
  eapply changes_ext; [|apply poly_changes]. intros x. cbv beta. rewrite F, alpha_is. unfold linear, poly. destruct a, b, c, d. apply vec_ext; simpl; field.
Qed.
Lemma coning T : gyro_to_rv (m_alpha m T) (vneg (m_alpha m (- T))) = vadd (m_alpha m T) (m_sigma m T).
Proof. rewrite sigma_is, !alpha_is. unfold gyro_to_rv, poly. destruct a, b. apply vec_ext; simpl; field. Qed.
Lemma sculling T : let acce := m_beta m T in let gyro := m_alpha m T in
  vadd (vadd acce (vscale (1 / 2) (cross gyro acce)))
    (vdiv (vadd (cross (vneg (m_alpha m (- T))) acce) (cross (vneg (m_beta m (- T))) gyro)) 12) = vadd (m_beta m T) (m_rho m T).
Proof. cbv zeta. rewrite rho_is, !alpha_is, !beta_is. unfold poly. destruct a, b, c, d. apply vec_ext; simpl; field. Qed.
End Linear.

Lemma ideal_compensate s x bias scale : bias = vzero -> scale = vzero -> compensate s x bias scale = x.
Proof. intros -> ->. unfold compensate. destruct x. vring. Qed.
Lemma extrapolate_forgets s u : extrapolate s = Some u -> extrapolate (forgets s) = Some (forgets u) /\ s_acce_pre u = s_acce_pre s /\ s_gyro_pre u = s_gyro_pre s /\
  s_nav u = s_nav s /\ s_dt u = s_dt s.
Proof.
  unfold extrapolate. cbv zeta. unfold forgets at 1 2 3 4 5 6 7 8 9 10 11 12 13 14 15 16. cbn [s_nav s_dt s_acce_pre s_gyro_pre].
  destruct (wen_opt (n_vn (s_nav s)) (n_pos (s_nav s))); cbn [bind]; [|discriminate].
  match goal with |- bind ?o _ = _ -> _ => destruct o; cbn [bind]; [|discriminate] end.
  match goal with |- bind ?o _ = _ -> _ => destruct o; cbn [bind]; [|discriminate] end.
  intros H. injection H as <-. cbn [s_acce_pre s_gyro_pre s_nav s_dt]. repeat split; reflexivity.
Qed.

(** the force seen during a turning interval acts like the whole impulse without turning *)
Lemma impulse a b c d m s t u :
  (forall t, m_w m t = linear a b t) -> (forall t, m_f m t = linear c d t) -> integrals m -> ideal s ->
  s_gyro_pre s = vneg (m_alpha m (- s_dt s)) -> s_acce_pre s = vneg (m_beta m (- s_dt s)) ->
  forward s (Imu t (m_alpha m (s_dt s)) (m_beta m (s_dt s))) = Some u ->
  exists v, forward (forgets s) (Imu t vzero (vadd (m_beta m (s_dt s)) (m_rho m (s_dt s)))) = Some v /\
    n_vn (s_nav u) = n_vn (s_nav v) /\ n_pos (s_nav u) = n_pos (s_nav v) /\ n_vf (s_nav u) = n_vf (s_nav v) /\ s_wie u = s_wie v /\ s_wen u = s_wen v /\
    n_Cbn (s_nav u) = quaternion_to_dcm (qnormalized (qmul (qmul (qconj (rv_to_quaternion (vscale (s_dt s) (vadd (s_wie u) (s_wen u))))) (n_Qbn (s_nav s)))
      (rv_to_quaternion (vadd (m_alpha m (s_dt s)) (m_sigma m (s_dt s)))))).
Proof.
  intros W F I (G1 & G2 & G3 & G4) Hg Ha. unfold forward. cbv zeta. cbn [i_acce i_gyro i_gpst].
  change (s_nav (forgets s)) with (s_nav s). rewrite !ideal_compensate by assumption.
  unfold mechanise. destruct (extrapolate s) as [s1|] eqn:E; cbn [bind]; [|discriminate].
  destruct (extrapolate_forgets _ _ E) as (E' & Ea & Eg & En & Ed). rewrite E'. cbn [bind].
  assert (Sc := sculling a b c d m W F I (s_dt s)). cbv zeta in Sc. assert (Co := coning a b m W I (s_dt s)).
  set (al := m_alpha m (s_dt s)) in *. set (be := m_beta m (s_dt s)) in *. set (x := vadd be (m_rho m (s_dt s))) in *.
  rewrite <- Hg, <- Ha in Sc. rewrite <- Hg in Co.
  unfold velocity_update. cbv zeta. rewrite Ea, Eg, Sc.
  change (s_nav (forgets s1)) with (s_nav s1). change (s_dt (forgets s1)) with (s_dt s1). change (s_acce_pre (forgets s1)) with vzero.
  change (s_gyro_pre (forgets s1)) with vzero. change (s_wen (forgets s1)) with (s_wen s1). change (s_wie (forgets s1)) with (s_wie s1).
  change (s_g (forgets s1)) with (s_g s1). change (s_pos_mid (forgets s1)) with (s_pos_mid s1).
  replace (vadd (vadd x (vscale (1 / 2) (cross vzero x))) (vdiv (vadd (cross vzero x) (cross vzero vzero)) 12)) with x by (destruct x; apply vec_ext; simpl; field).
  destruct (Req_EM_T (s_dt s1) 0); cbn [bind]; [discriminate|].
  match goal with |- context [wen_opt ?v ?p] => destruct (wen_opt v p); cbn [bind]; [|discriminate] end.
  unfold position_update. cbv zeta. cbn [s_nav s_dt s_acce_pre s_gyro_pre s_wen s_wie s_vn_mid s_pos_mid s_g].
  match goal with |- context [lla_opt ?q] => destruct (lla_opt q); cbn [bind]; [|discriminate] end.
  match goal with |- context [wen_opt ?v ?p] => destruct (wen_opt v p); cbn [bind]; [|discriminate] end.
  intros H. injection H as <-. eexists. split; [reflexivity|].
  unfold atti_update. cbv zeta. cbn [s_nav s_dt s_acce_pre s_gyro_pre s_wen s_wie nav_time nav_turn nav_place nav_vel n_vn n_pos n_vf n_Cbn n_Qbn].
  rewrite Co, En, Ed. repeat split; reflexivity.
Qed.
(** a manoeuvre that meets the hypotheses, for every choice of the coefficients *)
Definition manoeuvre_of (a b c d : vec) : manoeuvre :=
  Mv (linear a b) (linear c d) (poly a (vscale (1 / 2) b) vzero vzero) (poly c (vscale (1 / 2) d) vzero vzero)
     (poly vzero vzero (vscale (1 / 12) (cross a b)) vzero)
     (poly vzero (vscale (1 / 2) (cross a c)) (vadd (vscale (1 / 3) (cross a d)) (vscale (1 / 6) (cross b c))) (vscale (1 / 8) (cross b d))).
Lemma manoeuvre_ok a b c d : integrals (manoeuvre_of a b c d).
Proof.
  unfold integrals, manoeuvre_of. cbn [m_w m_f m_alpha m_beta m_sigma m_rho].
  repeat match goal with |- _ /\ _ => split end; try apply poly_0; (eapply changes_ext; [|apply poly_changes]); intros t; unfold linear, poly;
  destruct a, b, c, d; apply vec_ext; simpl; field.
Qed.
