(** Alignment seen from the interface: levelling, heading, velocity and installation angle. *)
From Coq Require Import Reals ZArith List Bool Lia Lra.
From Verif Require Import RealMath EarthModel ConvertModel ConvertSpec ConvertProofs SmoothModel SmoothSpec SmoothProofs SmoothProofs2
  InsModel FusionBase KalmanModel FusionModel AlignModel ApiModel ApiSpec AlignProofs ApiProofs ApiCases.
Import ListNotations.
Local Open Scope R_scope.

(** ** not in navigation without both events *)
Lemma static_more h g : found_static h -> found_static (h ++ g).
Proof.
  intros [k H]. exists (Nat.min k (length h)). rewrite firstn_app.
  replace (Nat.min k (length h) - length h)%nat with 0%nat by lia. simpl. rewrite app_nil_r.
  destruct (le_lt_dec k (length h)) as [L|L].
  - rewrite Nat.min_l by lia. exact H.
  - rewrite Nat.min_r by lia. rewrite firstn_all. rewrite firstn_all2 in H by lia. exact H.
Qed.
Lemma moving_more th h g : found_moving th h -> found_moving th (h ++ g).
Proof. intros (l & p & q & r & -> & M). exists l, p, q, (r ++ g). split; [rewrite <- app_assoc; reflexivity|exact M]. Qed.
Lemma imus_app a b : imus (a ++ b) = imus a ++ imus b.
Proof. induction a as [|[j o n|[x|]|[g|]| | | | |p| ] a IH]; simpl; rewrite ?IH; reflexivity. Qed.
Lemma fixes_app a b : fixes (a ++ b) = fixes a ++ fixes b.
Proof. induction a as [|[j o n|[x|]|[g|]| | | | |p| ] a IH]; simpl; rewrite ?IH; reflexivity. Qed.
Lemma late_fixes_app a b : exists r, late_fixes (a ++ b) = late_fixes a ++ r.
Proof.
  induction a as [|[j o n|[x|]|[g|]| | | | |p| ] a [r IH]]; simpl; eauto.
  rewrite fixes_app. eauto.
Qed.
Lemma not_navigation d j ao n d0 : api_init d j (Some ao) n = Some (d0, RGIOE_OK) ->
  o_align_mode (ao_rest ao) <> ALIGN_USE_GIVEN -> forall cs d1 l, Forall quiet cs -> api_run d0 cs = Some (d1, l) ->
  ~ (found_static (imus cs) /\ found_moving (o_align_vel (ao_rest ao)) (late_fixes cs)) -> d_status d1 <> RGIOE_STATUS_NAVIGATION.
Proof.
  intros I Mo. induction cs as [|c cs IH] using rev_ind; intros d1 l F H N.
  - simpl in H. injection H as <- _. destruct (init_ok _ _ _ _ _ I) as (S & _). rewrite S. discriminate.
  - rewrite api_run_app in H. destruct (api_run d0 cs) as [[d2 l2]|] eqn:E; [|discriminate].
    cbn [api_run] in H. destruct (api_do d2 c) as [[d3 a]|] eqn:E2; [|discriminate]. injection H as -> _.
    apply Forall_app in F. destruct F as [F Fc]. inversion Fc; subst.
    assert (N2 : ~ (found_static (imus cs) /\ found_moving (o_align_vel (ao_rest ao)) (late_fixes cs))).
    { intros [A B]. apply N. split; [rewrite imus_app; apply static_more; exact A|].
      destruct (late_fixes_app cs [c]) as [r ->]. apply moving_more. exact B. }
    intros Nv. destruct (navigation_reason _ _ _ _ _ _ _ _ c d1 a I F H1 E (IH _ _ F eq_refl N2) E2 Nv) as [_ [[K _]|K]]; contradiction.
Qed.

(** ** samples of a unit that is not moved: the specific force is the same in all of them *)
Definition steady (f : vec) (hs : list imu) : Prop := Forall (fun x => i_acce x = f) hs.
Definition steps (hs : list imu) : list api_call := map (fun x => ATime (Some x)) hs.
Lemma steps_imus hs : imus (steps hs) = hs.
Proof. induction hs; simpl; rewrite ?IHhs; reflexivity. Qed.
Lemma steps_fixes hs : fixes (steps hs) = [].
Proof. induction hs; simpl; auto. Qed.
Lemma steps_late hs : late_fixes (steps hs) = [].
Proof. destruct hs; simpl; [reflexivity|apply steps_fixes]. Qed.
Lemma steps_quiet hs : Forall quiet (steps hs).
Proof. induction hs; simpl; constructor; auto. exact I. Qed.
Lemma steps_acalls hs : acalls0 (steps hs) = map AlImu hs.
Proof. destruct hs as [|x hs]; [reflexivity|]. simpl. f_equal. induction hs; simpl; [reflexivity|]. rewrite IHhs. reflexivity. Qed.
Lemma al_imus_map hs : al_imus (map AlImu hs) = hs.
Proof. induction hs; simpl; rewrite ?IHhs; reflexivity. Qed.
(** a unit at rest: only the accelerometer is constant *)
Lemma steady_ave th sw w hs t f : (1 <= w)%Z -> hs <> [] -> smooth_run (smooth_new th sw w) hs = Some t -> steady f hs -> i_acce (s_ave t) = f.
Proof.
  intros W N H S. apply comp_ext. intros a. destruct (mean_in_range a th sw w hs t (comp a f) (comp a f) W N H) as [K _].
  assert (L : comp a f <= comp a (i_acce (s_ave t)) <= comp a f).
  { apply K. intros x Hx. rewrite (proj1 (Forall_forall _ _) S x Hx). lra. }
  lra.
Qed.
Lemma running_steady w x xs : (1 <= w)%Z -> forall m v s, (0 <= s)%Z -> Forall (fun y => y = x) xs -> (s = 0%Z \/ m = x) -> (s = 0%Z \/ v = 0) -> xs <> [] ->
  running w s m v xs = (x, 0).
Proof.
  intros W. induction xs as [|y xs IH]; intros m v s Hs F M Vv Nn; [contradiction|]. inversion F; subst. cbn [running].
  assert (E : m + (x - m) / IZR (Z.min (s + 1) w) = x).
  { destruct M as [M0|M0]; rewrite M0.
    - replace (Z.min (0 + 1) w) with 1%Z by lia. field.
    - unfold Rdiv. ring. }
  rewrite E. replace ((x - x) ^ 2) with 0 by ring.
  assert (E2 : v + (0 - v) / IZR (Z.min (s + 1) w) = 0).
  { destruct Vv as [M0|M0]; rewrite M0.
    - replace (Z.min (0 + 1) w) with 1%Z by lia. field.
    - unfold Rdiv. ring. }
  rewrite E2. destruct xs as [|z xs]; [reflexivity|]. apply IH; auto; [lia|discriminate].
Qed.
Lemma steady_spread f hs : steady f hs -> spread 30 hs = 0.
Proof.
  intros S. unfold spread, running_var.
  assert (K : forall c : vec -> R, snd (running 30 0 0 0 (map (fun x => c (i_acce x)) hs)) = 0).
  { intros c. destruct hs as [|x hs]; [reflexivity|].
    rewrite (running_steady 30 (c f)); [reflexivity|lia|lia| |left; reflexivity|left; reflexivity|discriminate].
    apply Forall_map. eapply Forall_impl; [|exact S]. intros y ->. reflexivity. }
  rewrite (K vx), (K vy), (K vz). replace (0 + 0 + 0) with 0 by ring. apply sqrt_0.
Qed.
Lemma steady_firstn f k hs : steady f hs -> steady f (firstn k hs).
Proof.
  unfold steady. rewrite !Forall_forall. intros S x Hx. apply S. rewrite <- (firstn_skipn k hs). apply in_app_iff. auto.
Qed.
Lemma steady_static f hs : steady f hs -> (200 < length hs)%nat -> found_static hs.
Proof.
  intros S L. exists (length hs). rewrite firstn_all. split; [lia|]. intros j _.
  rewrite (steady_spread f); [lra|]. apply steady_firstn. exact S.
Qed.

(** ** levelling *)
Definition leveled (o : option_t) (f : vec) : vec := vnormalized (level_force o (Imu 0 vzero f)).
Lemma imu_only v o f hs a : o_rate o <> 0 -> steady f hs -> align_run (align_new v o) (map AlImu hs) = Some a ->
  l_opt a = o /\ l_vpre a = v /\ l_pre a = gnss_none /\ l_yaw a = false /\
  exists n, l_nav a = Some n /\ n_vn n = vzero /\ n_vel_std n = vzero /\ n_att_std n = vzero /\ n_week n = 0%nat /\
   exists e, n_atti n = eu_of e /\ n_Cbn n = euler_to_dcm e /\
   (l_level a = false -> e = vzero) /\ (l_level a = true -> e = V (level_roll (leveled o f)) (level_pitch (leveled o f)) 0).
Proof.
  intros Hr. revert a. induction hs as [|x hs IH] using rev_ind; intros a S H.
  - simpl in H. injection H as <-. simpl. repeat split; auto. eexists. split; [reflexivity|]. simpl. repeat split; auto.
    exists vzero. repeat split; auto. discriminate.
  - rewrite map_app in H. simpl map in H. rewrite align_run_snoc in H. apply Forall_app in S. destruct S as [S Sx].
    destruct (align_run (align_new v o) (map AlImu hs)) as [b|] eqn:E; [|discriminate]. cbn [bind align_do] in H.
    destruct (IH b S eq_refl) as (Ho & Hv & Hp & Hy & n & En & Ev & Es & Ea & Ew & e & Ee & Ec & Ef & Et).
    destruct (align_flags _ _ _ _ E) as (_ & Rs & _). rewrite al_imus_map in Rs.
    unfold align_imu in H. destruct (smooth_update (l_smooth b) x) as [sm|] eqn:Eu; [|discriminate].
    destruct (l_level b) eqn:L.
    + injection H as <-. simpl. rewrite En. repeat split; auto. eexists. split; [reflexivity|]. simpl. repeat split; auto.
      exists e. repeat split; auto.
    + destruct (is_static sm) eqn:Is.
      * injection H as <-. simpl. rewrite Ho, En. rewrite (proj2 (is_zero_false _) Hr). repeat split; auto.
        eexists. split; [reflexivity|]. simpl. repeat split; auto.
        assert (Rs2 : smooth_run align_smooth (hs ++ [x]) = Some sm) by (rewrite smooth_run_snoc, Rs; exact Eu).
        assert (A : i_acce (s_ave sm) = f).
        { apply (steady_ave (1/1000) 200 30 (hs ++ [x])); [lia|destruct hs; discriminate|exact Rs2|].
          apply Forall_app. split; auto. }
        eexists. split; [reflexivity|]. split; [reflexivity|]. split; [discriminate|]. intros _.
        rewrite Ee, (Ef eq_refl). unfold leveled, level_force. rewrite A. reflexivity.
      * injection H as <-. simpl. rewrite En. repeat split; auto. eexists. split; [reflexivity|]. simpl. repeat split; auto.
        exists e. repeat split; auto; congruence.
Qed.

(** the status after the samples *)
Lemma held_status d j ao n d0 f hs d1 l : api_init d j (Some ao) n = Some (d0, RGIOE_OK) ->
  o_align_mode (ao_rest ao) <> ALIGN_USE_GIVEN -> o_rate (ao_rest ao) <> 0 -> steady f hs -> (200 < length hs)%nat ->
  api_run d0 (steps hs) = Some (d1, l) ->
  d_status d1 = RGIOE_STATUS_ATTITUDE /\ align_run (align_new (j_vpre j) (ao_rest ao)) (map AlImu hs) = Some (d_align d1) /\
  l_level (d_align d1) = true /\ d_opt d1 = ao_rest ao /\ d_fusion d1 = Some (fusion_new (j_ins j) (j_opt j)) /\ d_det d1 = fusion_smooth.
Proof.
  intros I Mo Hr S L H. assert (N : d_status d1 <> RGIOE_STATUS_NAVIGATION).
  { apply (not_navigation _ _ _ _ _ I Mo _ _ _ (steps_quiet hs) H). rewrite steps_late. intros [_ K]. exact (found_moving_nil _ K). }
  destruct (init_ok _ _ _ _ _ I) as (S0 & Ho & Ha & Hf & Hd & _).
  destruct (align_track0 _ _ _ _ (steps_quiet hs) S0 (eq_ind_r (fun o => o_align_mode o <> ALIGN_USE_GIVEN) Mo Ho) H N)
    as (A & R & Ro & Rf & Rd & _).
  rewrite steps_acalls, Ha in R. destruct (align_flags _ _ _ _ R) as (_ & _ & _ & Hl & _). rewrite al_imus_map in Hl.
  assert (Lv : l_level (d_align d1) = true) by (apply Hl; apply (steady_static f); auto).
  repeat split; auto; try congruence.
  rewrite steps_imus in A. destruct hs as [|x0 hs]; [simpl in L; lia|]. destruct A as [A|A]; [|exact A].
  exfalso. destruct (exists_last (l := x0 :: hs)) as (h2 & x & E); [discriminate|]. rewrite E in *. clear E.
  unfold steps in H. rewrite map_app, api_run_app in H. fold (steps h2) in H.
  destruct (api_run d0 (steps h2)) as [[d2 l2]|] eqn:E2; [|discriminate]. cbn [api_run api_do map] in H.
  destruct (api_time d2 (Some x)) as [[d3 e]|] eqn:E3; [|discriminate]. injection H as -> _.
  unfold api_time in E3. destruct (d_status d2) eqn:S2.
  - (* still INIT: no sample yet *)
    assert (h2 = []).
    { destruct h2 as [|y h2]; [reflexivity|]. exfalso. 
      assert (N2 : d_status d2 <> RGIOE_STATUS_NAVIGATION) by (rewrite S2; discriminate).
      destruct (align_track0 _ _ _ _ (steps_quiet _) S0 (eq_ind_r (fun o => o_align_mode o <> ALIGN_USE_GIVEN) Mo Ho) E2 N2) as (A2 & _).
      simpl in A2. destruct A2 as [A2|A2]; rewrite S2 in A2; discriminate. }
    subst h2. rewrite app_length in L. simpl in L. lia.
  - destruct (align_imu (d_align d2) x) as [b|] eqn:E4; [|discriminate]. injection E3 as <- _. simpl in *. rewrite Lv in A. discriminate.
  - destruct (align_imu (d_align d2) x) as [b|] eqn:E4; [|discriminate]. destruct (l_level b && l_yaw b); injection E3 as <- _; simpl in A; [discriminate|].
    rewrite S2 in A. discriminate.
  - destruct (df_time (d_fusion d2) (d_det d2) x) as [[f' sm]|]; [|discriminate]. injection E3 as <- _. simpl in A. rewrite S2 in A. discriminate.
  - injection E3 as <- _. rewrite S2 in A. discriminate.
Qed.

(** specific force of a unit at rest with the given attitude, gravity g, axes front-right-down *)
Definition rest_force (r p h g : R) : vec := mvec (mtrans (attitude r p h)) (V 0 0 (- g)).
Lemma rest_force_value r p h g : rest_force r p h g = V (g * sin p) (- (g * (sin r * cos p))) (- (g * (cos r * cos p))).
Proof. unfold rest_force. rewrite <- euler_dcm_attitude. unfold mvec, mtrans, euler_to_dcm; simpl. f_equal; ring. Qed.
Lemma no_errors o f : o_ab_ini o = vzero -> o_as_ini o = vzero -> level_force o (Imu 0 vzero f) = f.
Proof.
  intros A B. unfold level_force. rewrite A, B. destruct f as [x y z]. unfold mvec, msub, eye, mdiag, vsub, vscale, vzero. simpl. f_equal; ring.
Qed.
Lemma unit_force r p : sin p * sin p + sin r * cos p * (sin r * cos p) + cos r * cos p * (cos r * cos p) = 1.
Proof.
  assert (A := sin2_cos2 p). assert (B := sin2_cos2 r). unfold Rsqr in *.
  replace (sin p * sin p + sin r * cos p * (sin r * cos p) + cos r * cos p * (cos r * cos p))
    with (sin p * sin p + cos p * cos p * (sin r * sin r + cos r * cos r)) by ring.
  rewrite B. lra.
Qed.
Lemma leveled_value o k r p h : 0 < k -> o_ab_ini o = vzero -> o_as_ini o = vzero ->
  leveled o (rest_force r p h k) = V (sin p) (- (sin r * cos p)) (- (cos r * cos p)).
Proof.
  intros K A B. unfold leveled. rewrite no_errors by assumption. rewrite rest_force_value. unfold vnormalized, dot; simpl.
  assert (E : k * sin p * (k * sin p) + - (k * (sin r * cos p)) * - (k * (sin r * cos p)) + - (k * (cos r * cos p)) * - (k * (cos r * cos p)) = k * k).
  { transitivity (k * k * (sin p * sin p + sin r * cos p * (sin r * cos p) + cos r * cos p * (cos r * cos p))); [ring|].
    rewrite unit_force. ring. }
  rewrite E. destruct (Rlt_dec 0 (k * k)) as [_|N]; [|exfalso; apply N; nra].
  rewrite sqrt_square by lra. unfold vdiv; simpl. f_equal; field; lra.
Qed.
(** upright: |roll| < pi/2, |pitch| <= pi/2 *)
Lemma level_upright o k r p h : 0 < k -> o_ab_ini o = vzero -> o_as_ini o = vzero -> - (PI / 2) < r < PI / 2 -> - (PI / 2) <= p <= PI / 2 ->
  level_pitch (leveled o (rest_force r p h k)) = p /\ level_roll (leveled o (rest_force r p h k)) = asin (sin r * cos p).
Proof.
  intros K A B R P. rewrite leveled_value by assumption. unfold level_pitch, level_roll; simpl.
  assert (C1 : 0 < cos r) by (apply cos_gt_0; lra). assert (C2 : 0 <= cos p) by (apply cos_ge_0; lra).
  destruct (Rlt_dec 0 (- (cos r * cos p))) as [N|_]; [exfalso; nra|].
  split; [rewrite asin_sin by lra; ring|]. rewrite asin_opp. ring.
Qed.
Lemma asin_cancel a b : -1 <= a <= 1 -> asin a = b -> a = sin b.
Proof. intros A E. rewrite <- E. symmetry. apply sin_asin. exact A. Qed.
Lemma roll_right r p : - (PI / 2) < r < PI / 2 -> - (PI / 2) <= p <= PI / 2 -> (asin (sin r * cos p) = r <-> r = 0 \/ p = 0).
Proof.
  intros R P. assert (C1 : 0 < cos r) by (apply cos_gt_0; lra). assert (C2 : 0 <= cos p <= 1) by (split; [apply cos_ge_0; lra|apply COS_bound]).
  assert (S := SIN_bound r). split.
  - intros E. apply asin_cancel in E; [|nra].
    assert (F : sin r * (1 - cos p) = 0) by lra. apply Rmult_integral in F. destruct F as [F|F].
    + left. destruct (Rtotal_order r 0) as [L|[L|L]]; auto; exfalso.
      * assert (0 < sin (- r)) by (apply sin_gt_0; lra). rewrite sin_neg in H. lra.
      * assert (0 < sin r) by (apply sin_gt_0; lra). lra.
    + right. assert (Q1 : cos p = 1). { lra. } destruct (Rtotal_order p 0) as [L|[L|L]]; auto; exfalso.
      * assert (cos p < 1); [|lra]. rewrite <- cos_0. rewrite <- (cos_neg p). apply cos_decreasing_1; lra.
      * assert (cos p < 1); [|lra]. rewrite <- cos_0. apply cos_decreasing_1; lra.
  - intros [E|E]; rewrite E.
    + rewrite sin_0, Rmult_0_l. apply asin_0.
    + rewrite cos_0, Rmult_1_r. apply asin_sin. lra.
Qed.
(** upside down: the pitch gets the wrong sign *)
Lemma level_inverted o k r p h : 0 < k -> o_ab_ini o = vzero -> o_as_ini o = vzero -> PI / 2 < r < PI -> - (PI / 2) < p < PI / 2 ->
  level_pitch (leveled o (rest_force r p h k)) = - p.
Proof.
  intros K A B R P. rewrite leveled_value by assumption. unfold level_pitch; simpl.
  assert (C1 : cos r < 0) by (apply cos_lt_0; lra). assert (C2 : 0 < cos p) by (apply cos_gt_0; lra).
  destruct (Rlt_dec 0 (- (cos r * cos p))) as [_|N]; [|exfalso; apply N; nra]. rewrite asin_sin by lra. ring.
Qed.
Lemma scaled_force r p h g k : vscale k (rest_force r p h g) = rest_force r p h (k * g).
Proof. rewrite !rest_force_value. unfold vscale; simpl. f_equal; ring. Qed.

(** what the interface delivers *)
Lemma held_result d j ao n d0 f hs d1 l b : api_init d j (Some ao) n = Some (d0, RGIOE_OK) ->
  o_align_mode (ao_rest ao) <> ALIGN_USE_GIVEN -> o_rate (ao_rest ao) <> 0 -> steady f hs -> (200 < length hs)%nat ->
  api_run d0 (steps hs) = Some (d1, l) -> exists q, api_result d1 b = Some q /\
  p_atti q = Some (vdiv (V (level_roll (leveled (ao_rest ao) f)) (level_pitch (leveled (ao_rest ao) f)) 0) deg).
Proof.
  intros I Mo Hr S L H. destruct (held_status _ _ _ _ _ _ _ _ _ I Mo Hr S L H) as (St & R & Lv & _).
  destruct (imu_only _ _ _ _ _ Hr S R) as (_ & _ & _ & _ & nv & En & _ & _ & _ & _ & e & Ee & _ & _ & Et).
  unfold api_result. rewrite St. eexists. split; [reflexivity|]. simpl. rewrite En. simpl. rewrite Ee. simpl. rewrite (Et Lv). reflexivity.
Qed.
Lemma level_api d j ao n d0 r p h g hs d1 l b : api_init d j (Some ao) n = Some (d0, RGIOE_OK) -> let o := ao_rest ao in
  o_align_mode o <> ALIGN_USE_GIVEN -> 0 < o_rate o -> o_ab_ini o = vzero -> o_as_ini o = vzero -> 0 < g ->
  Forall (fun x => i_acce x = vscale (1 / o_rate o) (rest_force r p h g)) hs -> (200 < length hs)%nat ->
  api_run d0 (steps hs) = Some (d1, l) ->
  d_status d1 = RGIOE_STATUS_ATTITUDE /\
  (- (PI / 2) < r < PI / 2 -> - (PI / 2) <= p <= PI / 2 -> exists q v, api_do d1 (AResult b) = Some (d1, RPva (Some q)) /\
    p_atti q = Some v /\ vy v * (PI / 180) = p /\ vx v * (PI / 180) = asin (sin r * cos p) /\
    (vx v * (PI / 180) = r <-> r = 0 \/ p = 0)) /\
  (PI / 2 < r < PI -> - (PI / 2) < p < PI / 2 -> exists q v, api_do d1 (AResult b) = Some (d1, RPva (Some q)) /\
    p_atti q = Some v /\ vy v * (PI / 180) = - p).
Proof.
  intros I o Mo Hr A B G S L H. assert (Hr2 : o_rate (ao_rest ao) <> 0) by (fold o; lra).
  destruct (held_status _ _ _ _ _ _ _ _ _ I Mo Hr2 S L H) as (St & _).
  destruct (held_result _ _ _ _ _ _ _ _ _ b I Mo Hr2 S L H) as (q & Eq & Ea). fold o in Ea. rewrite scaled_force in Ea.
  assert (K : 0 < 1 / o_rate o * g).
  { apply Rmult_lt_0_compat; [apply Rdiv_lt_0_compat; lra|exact G]. }
  split; [exact St|]. assert (D := deg_nonzero). split.
  - intros R P. destruct (level_upright o _ r p h K A B R P) as [E1 E2]. rewrite E1, E2 in Ea.
    exists q. eexists. cbn [api_do]. rewrite Eq. split; [reflexivity|]. split; [exact Ea|]. unfold vdiv. cbn [vx vy vz]. fold deg.
    split; [field; exact D|]. assert (E3 : asin (sin r * cos p) / deg * deg = asin (sin r * cos p)) by (field; exact D).
    split; [exact E3|]. rewrite E3. apply roll_right; assumption.
  - intros R P. assert (E := level_inverted o _ r p h K A B R P). rewrite E in Ea.
    exists q. eexists. cbn [api_do]. rewrite Eq. split; [reflexivity|]. split; [exact Ea|]. unfold vdiv. cbn [vx vy vz]. fold deg. field; exact D.
Qed.
