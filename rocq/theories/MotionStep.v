(** One sample over a small interval, as functions of the interval (C87). *)
From Coq Require Import Reals Lra Psatz.
From Coquelicot Require Import Coquelicot.
From Verif Require Import RealMath EarthModel ConvertModel ConvertSpec ConvertProofs EarthProofs MathWrap SmoothModel
  InsModel InsProofs InsRest InsRest2 FusionBase JacobianSpec JacobianBase JacobianProofs MotionSpec MotionBase MotionPlace.
Open Scope R_scope.

Lemma freed_compensate s f0 w0 a0 m bias scale e : compensate (paced s f0 w0 a0 e) (vscale e m) bias scale = vscale e (freed m bias scale).
Proof. unfold compensate, freed, paced. cbn [s_dt]. destruct m, bias, scale. vring. Qed.

(** the pieces, all functions of the interval *)
Section Step.
Variables (lat lon h : R) (vn : vec) (a0 f0 w0 f w : R -> vec) (C : mat).
Definition wen0 : vec := omega_en_n vn (V lat lon h).
Definition q1 (e : R) : quat := placeq (fun _ => vscale (- (1 / 2)) omega_ie_e) (fun _ => vscale (1 / 2) (vadd (omega_ie_n lat) wen0)) (lla_to_qne lat lon) e.
Definition p1 (e : R) : vec := V (lat_of (q1 e)) (lon_of (q1 e)) (h - vz vn * e / 2).
Definition v1 (e : R) : vec := vadd vn (vscale (1 / 2) (vscale e (a0 e))).
Definition wen1 (e : R) : vec := omega_en_n (v1 e) (p1 e).
Definition wie1 (e : R) : vec := omega_ie_n (lat_of (q1 e)).
Definition g1 (e : R) : R := gravity (lat_of (q1 e)) (h - vz vn * e / 2).
Definition vf1 (e : R) : vec := vadd (vadd (f e) (vscale (e / 2) (cross (w e) (f e)))) (vscale (e / 12) (vadd (cross (w0 e) (f e)) (cross (f0 e) (w e)))).
Definition acc (e : R) : vec :=
  vadd (vsub (mvec C (vf1 e)) (vscale (e / 2) (cross (vadd (wen1 e) (wie1 e)) (mvec C (vf1 e)))))
       (vsub (V 0 0 (g1 e)) (cross (vadd (vscale 2 (wie1 e)) (wen1 e)) vn)).
Definition v2 (e : R) : vec := vadd vn (vscale e (acc e)).
Definition vmid (e : R) : vec := vadd vn (vscale e (vscale (1 / 2) (acc e))).
Definition wen2 (e : R) : vec := omega_en_n (vmid e) (p1 e).
Definition q2 (e : R) : quat := placeq (fun _ => vneg omega_ie_e) (fun e => vadd (wie1 e) (wen2 e)) (lla_to_qne lat lon) e.
Definition p2 (e : R) : vec := V (lat_of (q2 e)) (lon_of (q2 e)) (h - vz (vmid e) * e).
Definition pm (e : R) : vec := V (vx (p2 e) + 1 / 2 * (vx (p2 e) - lat)) (vy (p2 e) + 1 / 2 * (vy (p2 e) - lon)) (1 / 2 * (vz (p2 e) + h)).
Definition wen3 (e : R) : vec := omega_en_n (vmid e) (pm e).
Definition wie3 (e : R) : vec := omega_ie_n (vx (pm e)).
Definition qb (Q0 : quat) (e : R) : quat := placeq (fun e => vneg (vadd (wie3 e) (wen3 e))) (fun e => vadd (w e) (vscale e (vscale (1 / 12) (cross (w0 e) (w e))))) Q0 e.

Hypothesis P : place_ok lat lon h.
Hypothesis Sa : vsm a0. Hypothesis Sf0 : vsm f0. Hypothesis Sw0 : vsm w0. Hypothesis Sf : vsm f. Hypothesis Sw : vsm w.
Lemma place00 : lat_of (lla_to_qne lat lon) = lat /\ lon_of (lla_to_qne lat lon) = lon.
Proof. exact (lat_of_place _ _ _ P). Qed.
Lemma wen_tan v : vz (omega_en_n v (V lat lon h)) = - vx (omega_en_n v (V lat lon h)) * tan lat.
Proof. unfold omega_en_n. simpl. unfold Rdiv. ring. Qed.
Lemma q1_diff : sm (fun e => lat_of (q1 e)) /\ sm (fun e => lon_of (q1 e)).
Proof.
  unfold q1. destruct (placeq_place (fun _ => vscale (- (1 / 2)) omega_ie_e) (fun _ => vscale (1 / 2) (vadd (omega_ie_n lat) wen0)) lat lon h
     (1 / 2) (vscale (1 / 2) wen0) P) as (A & B).
  - cbn [vscale vx vz]. assert (K := wen_tan vn). fold wen0 in K. rewrite K. ring.
  - apply vsm_const.
  - apply vsm_const.
  - reflexivity.
  - unfold wen0. destruct (omega_ie_n lat), (omega_en_n vn (V lat lon h)). vring.
  - split; eexists; eassumption.
Qed.
Lemma p1_0 : p1 0 = V lat lon h.
Proof. unfold p1, q1. rewrite placeq_0. destruct place00 as (-> & ->). f_equal. field. Qed.
Lemma p1_sm : vsm p1.
Proof.
  destruct q1_diff as (A & B). apply vsm_V; [exact A|exact B|]. unfold sm. auto_derive. exact I.
Qed.
Lemma v1_sm : vsm v1.
Proof.
  unfold v1. apply vsm_add; [apply vsm_const|]. apply (vsm_scale (fun _ => 1 / 2)); [apply sm_const|]. apply (vsm_scale (fun e => e)); [apply sm_id|exact Sa].
Qed.
Lemma v1_0 : v1 0 = vn. Proof. unfold v1. destruct vn, (a0 0). vring. Qed.
Lemma ok1 : vec_ok (p1 0). Proof. rewrite p1_0. eapply place_vec; exact P. Qed.
Lemma wen1_sm : vsm wen1. Proof. apply vsm_wen; [apply v1_sm|apply p1_sm|apply ok1]. Qed.
Lemma wie1_sm : vsm wie1. Proof. apply vsm_wie. apply q1_diff. Qed.
Lemma g1_sm : sm g1. Proof. apply sm_gravity; [apply q1_diff|]. unfold sm. auto_derive. exact I. Qed.
Lemma vf1_sm : vsm vf1.
Proof.
  unfold vf1. apply vsm_add; [apply vsm_add; [exact Sf|]|].
  - apply (vsm_scale (fun e => e / 2)); [|apply vsm_cross; assumption]. unfold sm. auto_derive. exact I.
  - apply (vsm_scale (fun e => e / 12)); [|apply vsm_add; apply vsm_cross; assumption]. unfold sm. auto_derive. exact I.
Qed.
Lemma acc_sm : vsm acc.
Proof.
  assert (K := vsm_mvec C _ vf1_sm). unfold acc. apply vsm_add; apply vsm_sub.
  - exact K.
  - apply (vsm_scale (fun e => e / 2)); [unfold sm; auto_derive; exact I|]. apply vsm_cross; [|exact K]. apply vsm_add; [apply wen1_sm|apply wie1_sm].
  - apply vsm_V; [apply sm_const|apply sm_const|apply g1_sm].
  - apply vsm_cross; [|apply vsm_const]. apply vsm_add; [apply (vsm_scale (fun _ => 2)); [apply sm_const|apply wie1_sm]|apply wen1_sm].
Qed.
Lemma wen1_0 : wen1 0 = wen0. Proof. unfold wen1. rewrite p1_0, v1_0. reflexivity. Qed.
Lemma wie1_0 : wie1 0 = omega_ie_n lat. Proof. unfold wie1, q1. rewrite placeq_0. destruct place00 as (-> & _). reflexivity. Qed.
Lemma g1_0 : g1 0 = gravity lat h.
Proof. unfold g1, q1. rewrite placeq_0. destruct place00 as (-> & _). f_equal. field. Qed.
Lemma acc_0 : acc 0 = vadd (mvec C (f 0)) (vsub (V 0 0 (gravity lat h)) (cross (vadd (vscale 2 (omega_ie_n lat)) wen0) vn)).
Proof.
  unfold acc. rewrite wen1_0, wie1_0, g1_0.
  replace (vf1 0) with (f 0) by (unfold vf1; destruct (f 0), (w 0), (f0 0), (w0 0); apply vec_ext; simpl; field). 
  generalize (cross (vadd wen0 (omega_ie_n lat)) (mvec C (f 0))). intros z. generalize (mvec C (f 0)). intros y.
  replace (vsub y (vscale (0 / 2) z)) with y; [reflexivity|]. destruct y, z. apply vec_ext; simpl; field.
Qed.
Lemma v2_diff : vdiff v2 (acc 0).
Proof.
  unfold v2. replace (acc 0) with (vadd vzero (acc 0)) by (apply vec_ext; simpl; ring). apply vdiff_add; [apply vdiff_const|]. apply vdiff_times, acc_sm.
Qed.
Lemma v2_0 : v2 0 = vn. Proof. unfold v2. destruct vn, (acc 0). vring. Qed.
Lemma vmid_sm : vsm vmid.
Proof.
  unfold vmid. apply vsm_add; [apply vsm_const|]. apply (vsm_scale (fun e => e)); [apply sm_id|]. apply (vsm_scale (fun _ => 1 / 2)); [apply sm_const|apply acc_sm].
Qed.
Lemma vmid_0 : vmid 0 = vn. Proof. unfold vmid. destruct vn, (acc 0). vring. Qed.
Lemma wen2_sm : vsm wen2. Proof. apply vsm_wen; [apply vmid_sm|apply p1_sm|apply ok1]. Qed.
Lemma wen2_0 : wen2 0 = wen0. Proof. unfold wen2. rewrite p1_0, vmid_0. reflexivity. Qed.
Lemma b2_sm : vsm (fun e => vadd (wie1 e) (wen2 e)). Proof. apply vsm_add; [apply wie1_sm|apply wen2_sm]. Qed.
Lemma q2_diff : is_derive (fun e => lat_of (q2 e)) 0 (vx vn / (RM lat + h)) /\ is_derive (fun e => lon_of (q2 e)) 0 (vy vn / (RN lat + h) / cos lat).
Proof.
  destruct (placeq_place (fun _ => vneg omega_ie_e) (fun e => vadd (wie1 e) (wen2 e)) lat lon h 1 wen0 P) as (A & B).
  - apply wen_tan.
  - apply vsm_const.
  - apply b2_sm.
  - vring.
  - rewrite wie1_0, wen2_0. destruct (omega_ie_n lat), wen0. vring.
  - split; [|exact B]. replace (vx vn / (RM lat + h)) with (- vy wen0) by (unfold wen0, omega_en_n; simpl; unfold Rdiv; ring). exact A.
Qed.
Lemma h2_diff : is_derive (fun e => h - vz (vmid e) * e) 0 (- vz vn).
Proof.
  destruct vmid_sm as (_ & _ & Cc). apply times_diff in Cc. rewrite vmid_0 in Cc.
  apply (is_derive_ext (fun e => h - e * vz (vmid e))); [intros; match goal with |- @eq _ ?a ?b => change (@eq R a b) end; ring|].
  evar_last. { apply @is_derive_minus; [apply @is_derive_const|exact Cc]. } unfold minus, plus, opp, zero; simpl. ring.
Qed.
Lemma p2_sm : vsm p2.
Proof. apply vsm_V; [eexists; apply q2_diff|eexists; apply q2_diff|eexists; apply h2_diff]. Qed.
Lemma p2_0 : p2 0 = V lat lon h.
Proof. unfold p2, q2. rewrite placeq_0. destruct place00 as (-> & ->). f_equal. ring. Qed.
Lemma pm_0 : pm 0 = V lat lon h. Proof. unfold pm. rewrite p2_0. simpl. f_equal; field. Qed.
Lemma sm_shift k l g : sm g -> sm (fun e => g e + k * (g e - l)). Proof. intros G. unfold sm in *. auto_derive. auto. Qed.
Lemma sm_half l g : sm g -> sm (fun e => 1 / 2 * (g e + l)). Proof. intros G. unfold sm in *. auto_derive. auto. Qed.
Lemma pm_sm : vsm pm.
Proof.
  destruct p2_sm as (A & B & D). apply vsm_V; [apply (sm_shift (1 / 2) lat (fun e => vx (p2 e)))|apply (sm_shift (1 / 2) lon (fun e => vy (p2 e)))|apply (sm_half h (fun e => vz (p2 e)))]; assumption.
Qed.
Lemma okm : vec_ok (pm 0). Proof. rewrite pm_0. eapply place_vec; exact P. Qed.
Lemma wen3_sm : vsm wen3. Proof. apply vsm_wen; [apply vmid_sm|apply pm_sm|apply okm]. Qed.
Lemma wie3_sm : vsm wie3. Proof. apply vsm_wie. apply pm_sm. Qed.
Lemma wen3_0 : wen3 0 = wen0. Proof. unfold wen3. rewrite pm_0, vmid_0. reflexivity. Qed.
Lemma wie3_0 : wie3 0 = omega_ie_n lat. Proof. unfold wie3. rewrite pm_0. reflexivity. Qed.
Lemma vsm_neg g : vsm g -> vsm (fun e => vneg (g e)).
Proof. intros (A & B & D). refine (conj _ (conj _ _)); cbn [vneg vx vy vz]; apply sm_opp; assumption. Qed.
Lemma qa_sm : vsm (fun e => vneg (vadd (wie3 e) (wen3 e))). Proof. apply vsm_neg. apply vsm_add; [apply wie3_sm|apply wen3_sm]. Qed.
Lemma qc_sm : vsm (fun e => vadd (w e) (vscale e (vscale (1 / 12) (cross (w0 e) (w e))))).
Proof.
  apply vsm_add; [exact Sw|]. apply (vsm_scale (fun e => e)); [apply sm_id|]. apply (vsm_scale (fun _ => 1 / 12)); [apply sm_const|].
  apply vsm_cross; assumption.
Qed.

(** the chain of updates *)
Variables (s : ins).
Hypothesis Hp : n_pos (s_nav s) = V lat lon h.
Hypothesis HQ : n_Qne (s_nav s) = lla_to_qne lat lon.
Hypothesis Hv : n_vn (s_nav s) = vn.
Hypothesis HC : n_Cbn (s_nav s) = C.
Definition nav0 (e : R) : navepoch := nav_vel (s_nav s) vn (vscale e (a0 e)) (n_vf (s_nav s)).
Definition st1 (e : R) : ins := Ins (nav0 e) e (vscale e (f0 e)) (vscale e (w0 e)) (wen1 e) (wie1 e) (v1 e) (p1 e) (g1 e).
Lemma rv_half x e : vdiv (vscale e x) 2 = vscale e (vscale (1 / 2) x).
Proof. destruct x. apply vec_ext; simpl; field. Qed.
Lemma rv_at u : vsm u -> near (fun e => rv_to_quaternion (vscale e (u e)) = rvq u e).
Proof. apply rvq_eq. Qed.
Lemma rv_conj_at u : vsm u -> near (fun e => qconj (rv_to_quaternion (vscale e (u e))) = rvq (fun e => vneg (u e)) e).
Proof. intros U. apply (near_imp (fun e => rv_to_quaternion (vscale e (u e)) = rvq u e)); [|apply rvq_eq; exact U]. intros e ->. apply conj_rvs. Qed.
Lemma extrapolate_near : near (fun e => extrapolate (paced s f0 w0 a0 e) = Some (st1 e)).
Proof.
  assert (W0 : wen_opt vn (V lat lon h) = Some wen0). { unfold wen_opt. rewrite (place_rates _ _ _ P). reflexivity. }
  assert (N1 := rv_at (fun _ => vscale (1 / 2) (vadd (omega_ie_n lat) wen0)) (vsm_const _)).
  assert (N2 := rv_conj_at (fun _ => vscale (1 / 2) omega_ie_e) (vsm_const _)).
  assert (N3 := near_lla (fun _ => vscale (- (1 / 2)) omega_ie_e) (fun _ => vscale (1 / 2) (vadd (omega_ie_n lat) wen0)) lat lon h P (vsm_const _) (vsm_const _)).
  assert (N4 := near_wen v1 p1 p1_sm ok1).
  assert (N := near_two _ _ N1 (near_two _ _ N2 (near_two _ _ N3 N4))). revert N. apply near_imp. intros e (E1 & E2 & E3 & E4).
  unfold extrapolate. cbv zeta. unfold paced. cbn [s_nav s_dt s_acce_pre s_gyro_pre n_vn n_pos n_dvn n_Qne nav_vel].
  rewrite Hp, Hv, HQ. rewrite W0. cbn [bind vx vy vz].
  rewrite !rv_half. cbv beta in E1, E2. rewrite E1, E2.
  replace (rvq (fun _ : R => vneg (vscale (1 / 2) omega_ie_e)) e) with (rvq (fun _ => vscale (- (1 / 2)) omega_ie_e) e).
  2:{ unfold rvq. f_equal. apply vec_ext; simpl; ring. }
  change (qmul (qmul (rvq (fun _ : R => vscale (- (1 / 2)) omega_ie_e) e) (lla_to_qne lat lon)) (rvq (fun _ : R => vscale (1 / 2) (vadd (omega_ie_n lat) wen0)) e))
    with (placeq (fun _ : R => vscale (- (1 / 2)) omega_ie_e) (fun _ : R => vscale (1 / 2) (vadd (omega_ie_n lat) wen0)) (lla_to_qne lat lon) e).
  rewrite E3. cbn [bind fst snd].
  change (placeq (fun _ : R => vscale (- (1 / 2)) omega_ie_e) (fun _ : R => vscale (1 / 2) (vadd (omega_ie_n lat) wen0)) (lla_to_qne lat lon) e) with (q1 e).
  change (vadd vn (vscale (1 / 2) (vscale e (a0 e)))) with (v1 e).
  change (V (lat_of (q1 e)) (lon_of (q1 e)) (h - vz vn * e / 2)) with (p1 e). rewrite E4. cbn [bind]. reflexivity.
Qed.
Definition nav2 (e : R) (vf : vec) : navepoch := nav_vel (s_nav s) (v2 e) (vscale e (acc e)) vf.
Definition st2 (e : R) (vf : vec) : ins := Ins (nav2 e vf) e (vscale e (f0 e)) (vscale e (w0 e)) (wen2 e) (wie1 e) (vmid e) (p1 e) (g1 e).
Lemma velocity_near : near (fun e => e <> 0 -> exists vf, velocity_update (st1 e) (vscale e (f e)) (vscale e (w e)) = Some (st2 e vf)).
Proof.
  assert (N := near_wen vmid p1 p1_sm ok1). revert N. apply near_imp. intros e E Ne.
  unfold velocity_update. cbv zeta. 
  change (s_nav (st1 e)) with (nav0 e). change (s_dt (st1 e)) with e. change (s_acce_pre (st1 e)) with (vscale e (f0 e)).
  change (s_gyro_pre (st1 e)) with (vscale e (w0 e)). change (s_wen (st1 e)) with (wen1 e). change (s_wie (st1 e)) with (wie1 e). change (s_g (st1 e)) with (g1 e).
  assert (Dv : vadd (mvec (mmul (msub eye (mscale (1 / 2) (skew (vscale e (vadd (wen1 e) (wie1 e)))))) (n_Cbn (nav0 e)))
     (vadd (vadd (vscale e (f e)) (vscale (1 / 2) (cross (vscale e (w e)) (vscale e (f e)))))
        (vdiv (vadd (cross (vscale e (w0 e)) (vscale e (f e))) (cross (vscale e (f0 e)) (vscale e (w e)))) 12)))
     (vscale e (vsub (V 0 0 (g1 e)) (cross (vadd (vscale 2 (wie1 e)) (wen1 e)) (n_vn (nav0 e))))) = vscale e (acc e)).
  { unfold nav0. cbn [n_Cbn n_vn nav_vel]. rewrite HC. 
    replace (vadd (vadd (vscale e (f e)) (vscale (1 / 2) (cross (vscale e (w e)) (vscale e (f e)))))
        (vdiv (vadd (cross (vscale e (w0 e)) (vscale e (f e))) (cross (vscale e (f0 e)) (vscale e (w e)))) 12)) with (vscale e (vf1 e)).
    2:{ unfold vf1. destruct (f e), (w e), (f0 e), (w0 e). apply vec_ext; simpl; field. }
    rewrite mvec_mmul. unfold acc. replace (mvec C (vscale e (vf1 e))) with (vscale e (mvec C (vf1 e))) by (destruct C, (vf1 e); vring).
    generalize (cross (vadd (vscale 2 (wie1 e)) (wen1 e)) vn). intros k. generalize (mvec C (vf1 e)) (vadd (wen1 e) (wie1 e)). intros x y.
    destruct x, y, k. apply vec_ext; simpl; field. }
  rewrite !Dv. destruct (Req_EM_T e 0) as [K|K]; [contradiction|].
  change (n_vn (nav0 e)) with vn.
  replace (vadd vn (vdiv (vscale e (acc e)) 2)) with (vmid e). 2:{ unfold vmid. rewrite rv_half. reflexivity. }
  change (s_pos_mid (st1 e)) with (p1 e). rewrite E. cbn [bind]. eexists. reflexivity.
Qed.
Definition nav3 (e : R) (vf : vec) : navepoch := nav_place (nav2 e vf) (p2 e) (qnormalized (q2 e)) (lla_to_cne (lat_of (q2 e)) (lon_of (q2 e))).
Definition st3 (e : R) (vf : vec) : ins := Ins (nav3 e vf) e (vscale e (f0 e)) (vscale e (w0 e)) (wen3 e) (wie3 e) (vmid e) (pm e) (g1 e).
Lemma position_near : near (fun e => forall vf, position_update (st2 e vf) = Some (st3 e vf)).
Proof.
  assert (N1 := rv_at (fun e => vadd (wie1 e) (wen2 e)) b2_sm).
  assert (N2 := rv_conj_at (fun _ => omega_ie_e) (vsm_const _)).
  assert (N3 := near_lla (fun _ => vneg omega_ie_e) (fun e => vadd (wie1 e) (wen2 e)) lat lon h P (vsm_const _) b2_sm).
  assert (N4 := near_wen vmid pm pm_sm okm).
  assert (N := near_two _ _ N1 (near_two _ _ N2 (near_two _ _ N3 N4))). revert N. apply near_imp. intros e (E1 & E2 & E3 & E4) vf.
  unfold position_update. cbv zeta. unfold st2. cbn [s_nav s_dt s_acce_pre s_gyro_pre s_wen s_wie s_vn_mid s_g].
  change (n_Qne (nav2 e vf)) with (n_Qne (s_nav s)). change (n_pos (nav2 e vf)) with (n_pos (s_nav s)). rewrite HQ, Hp. cbv beta in E1, E2. rewrite E1, E2.
  change (qmul (qmul (rvq (fun _ : R => vneg omega_ie_e) e) (lla_to_qne lat lon)) (rvq (fun e => vadd (wie1 e) (wen2 e)) e)) with (q2 e).
  change (placeq (fun _ : R => vneg omega_ie_e) (fun e => vadd (wie1 e) (wen2 e)) (lla_to_qne lat lon) e) with (q2 e) in E3.
  rewrite E3. cbn [bind fst snd vx vy vz].
  change (V (lat_of (q2 e) + 1 / 2 * (lat_of (q2 e) - lat)) (lon_of (q2 e) + 1 / 2 * (lon_of (q2 e) - lon)) (1 / 2 * (h - vz (vmid e) * e + h))) with (pm e).
  rewrite E4. cbn [bind]. reflexivity.
Qed.
Lemma gyro_rv e : gyro_to_rv (vscale e (w e)) (vscale e (w0 e)) = vscale e (vadd (w e) (vscale e (vscale (1 / 12) (cross (w0 e) (w e))))).
Proof. unfold gyro_to_rv. destruct (w e), (w0 e). apply vec_ext; simpl; field. Qed.
Lemma attitude_near : near (fun e => forall vf, n_Cbn (s_nav (atti_update (st3 e vf) (vscale e (w e)))) =
  quaternion_to_dcm (qnormalized (qb (n_Qbn (s_nav s)) e))).
Proof.
  assert (N1 := rv_at _ qc_sm). assert (N2 := rv_conj_at (fun e => vadd (wie3 e) (wen3 e)) (vsm_add _ _ wie3_sm wen3_sm)).
  assert (N := near_two _ _ N1 N2). revert N. apply near_imp. intros e (E1 & E2) vf. cbv beta in E1, E2.
  unfold atti_update. cbv zeta. unfold st3. cbn [s_nav s_dt s_acce_pre s_gyro_pre s_wen s_wie n_Cbn nav_turn].
  rewrite gyro_rv, E1, E2. reflexivity.
Qed.
End Step.

Lemma vsm_freed g bias scale : vsm g -> vsm (fun e => freed (g e) bias scale).
Proof. intros G. unfold freed. apply vsm_mvec. apply vsm_sub; [exact G|apply vsm_const]. Qed.
Lemma forward_near s lat lon h (f0 w0 a0 : R -> vec) t (f w : R -> vec) : agrees s lat lon h -> vsm a0 -> vsm f0 -> vsm w0 -> vsm f -> vsm w ->
  let n := s_nav s in let fr := fun e => freed (f e) (n_ab n) (n_as n) in let wr := fun e => freed (w e) (n_gb n) (n_gs n) in
  near (fun e => e <> 0 -> exists u, forward (paced s f0 w0 a0 e) (increments t f w e) = Some u /\
    n_pos (s_nav u) = p2 lat lon h (n_vn n) a0 f0 w0 fr wr (n_Cbn n) e /\
    n_vn (s_nav u) = v2 lat lon h (n_vn n) a0 f0 w0 fr wr (n_Cbn n) e /\
    n_Cbn (s_nav u) = quaternion_to_dcm (qnormalized (qb lat lon h (n_vn n) a0 f0 w0 fr wr (n_Cbn n) (n_Qbn n) e))).
Proof.
  intros (P & Hp & HQ & Hu & HC) Sa Sf0 Sw0 Sf Sw n fr wr.
  assert (Sfr : vsm fr) by (apply vsm_freed; exact Sf). assert (Swr : vsm wr) by (apply vsm_freed; exact Sw).
  assert (N1 : near (fun e => extrapolate (paced s f0 w0 a0 e) = Some (st1 lat lon h (n_vn n) a0 f0 w0 s e))) by (apply extrapolate_near; auto).
  assert (N2 : near (fun e => e <> 0 -> exists vf, velocity_update (st1 lat lon h (n_vn n) a0 f0 w0 s e) (vscale e (fr e)) (vscale e (wr e)) =
     Some (st2 lat lon h (n_vn n) a0 f0 w0 fr wr (n_Cbn n) s e vf))) by (apply velocity_near; auto).
  assert (N3 : near (fun e => forall vf, position_update (st2 lat lon h (n_vn n) a0 f0 w0 fr wr (n_Cbn n) s e vf) =
     Some (st3 lat lon h (n_vn n) a0 f0 w0 fr wr (n_Cbn n) s e vf))) by (apply position_near; auto).
  assert (N4 : near (fun e => forall vf, n_Cbn (s_nav (atti_update (st3 lat lon h (n_vn n) a0 f0 w0 fr wr (n_Cbn n) s e vf) (vscale e (wr e)))) =
     quaternion_to_dcm (qnormalized (qb lat lon h (n_vn n) a0 f0 w0 fr wr (n_Cbn n) (n_Qbn (s_nav s)) e)))) by (apply attitude_near; auto).
  assert (N := near_two _ _ N1 (near_two _ _ N2 (near_two _ _ N3 N4))). revert N. apply near_imp. intros e (E1 & E2 & E3 & E4) Ne.
  unfold forward. cbv zeta. unfold increments. cbn [i_acce i_gyro i_gpst]. rewrite !freed_compensate.
  change (n_ab (s_nav (paced s f0 w0 a0 e))) with (n_ab n). change (n_as (s_nav (paced s f0 w0 a0 e))) with (n_as n).
  change (n_gb (s_nav (paced s f0 w0 a0 e))) with (n_gb n). change (n_gs (s_nav (paced s f0 w0 a0 e))) with (n_gs n).
  change (freed (f e) (n_ab n) (n_as n)) with (fr e). change (freed (w e) (n_gb n) (n_gs n)) with (wr e).
  unfold mechanise. rewrite E1. cbn [bind]. destruct (E2 Ne) as (vf & V2). rewrite V2. cbn [bind]. rewrite E3. cbn [bind].
  eexists. split; [reflexivity|]. cbn [s_nav nav_time n_pos n_vn n_Cbn]. rewrite E4. repeat split; reflexivity.
Qed.
