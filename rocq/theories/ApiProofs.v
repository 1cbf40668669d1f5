(** Status, gating and initialisation of the C interface. *)
From Coq Require Import Reals ZArith List Bool Lia Lra.
From Verif Require Import RealMath EarthModel ConvertModel SmoothModel SmoothSpec SmoothProofs SmoothProofs2 InsModel FusionBase
  KalmanModel FusionModel AlignModel ApiModel ApiSpec AlignProofs.
Import ListNotations.
Local Open Scope R_scope.

Lemma api_run_app d cs ds : api_run d (cs ++ ds) =
  match api_run d cs with
  | None => None
  | Some (d1, l1) => match api_run d1 ds with None => None | Some (d2, l2) => Some (d2, l1 ++ l2) end
  end.
Proof.
  revert d. induction cs as [|c cs IH]; intros d; simpl.
  - destruct (api_run d ds) as [[]|]; reflexivity.
  - destruct (api_do d c) as [[d1 a]|]; [|reflexivity]. rewrite IH.
    destruct (api_run d1 cs) as [[d2 l]|]; [|reflexivity]. destruct (api_run d2 ds) as [[]|]; reflexivity.
Qed.

(** one call *)
Lemma time_status d x d' e : api_time d x = Some (d', e) ->
  (rank (d_status d) <= rank (d_status d'))%Z /\ (d_status d <> RGIOE_STATUS_ERROR -> d_status d' <> RGIOE_STATUS_ERROR).
Proof.
  unfold api_time. destruct x as [x|]; [|intros H; injection H as <- _; split; [lia|auto]].
  destruct (d_status d) eqn:S; intros H.
  - destruct (o_align_mode (d_opt d) =? ALIGN_USE_GIVEN)%Z.
    + destruct (df_time _ _ x) as [[f sm]|]; [|discriminate]. injection H as <- _. simpl. split; [lia|discriminate].
    + destruct (align_imu _ x); [|discriminate]. injection H as <- _. simpl. split; [lia|discriminate].
  - destruct (align_imu _ x); [|discriminate]. injection H as <- _. simpl. destruct (l_level a); simpl; split; try lia; discriminate.
  - destruct (align_imu _ x); [|discriminate]. destruct (l_level a && l_yaw a); injection H as <- _; simpl; rewrite ?S; simpl; split; try lia; discriminate.
  - destruct (df_time _ _ x) as [[f sm]|]; [|discriminate]. injection H as <- _. simpl. rewrite S. simpl. split; [lia|discriminate].
  - injection H as <- _. rewrite S. split; [lia|auto].
Qed.
Lemma gnss_status d g : d_status (fst (api_gnss d g)) = d_status d.
Proof. unfold api_gnss. destruct g; [|reflexivity]. destruct (d_status d) eqn:S; simpl; auto. Qed.
Lemma do_status d c d' a : quiet c -> api_do d c = Some (d', a) ->
  (rank (d_status d) <= rank (d_status d'))%Z /\ (d_status d <> RGIOE_STATUS_ERROR -> d_status d' <> RGIOE_STATUS_ERROR).
Proof.
  destruct c; simpl; intros Qc H; try contradiction.
  - destruct (api_time d x) as [[d1 e]|] eqn:E; [|discriminate]. injection H as <- _. eapply time_status; eauto.
  - assert (G := gnss_status d g). destruct (api_gnss d g) as [d1 e]. injection H as <- _. simpl in G. rewrite G. split; [lia|auto].
  - injection H as <- _. split; [lia|auto].
  - injection H as <- _. split; [lia|auto].
  - injection H as <- _. split; [lia|auto].
  - injection H as <- _. split; [lia|auto].
  - injection H as <- _. split; [lia|auto].
  - injection H as <- _. split; [lia|auto].
Qed.
Lemma run_status cs : forall d d' l, Forall quiet cs -> api_run d cs = Some (d', l) ->
  (rank (d_status d) <= rank (d_status d'))%Z /\ (d_status d <> RGIOE_STATUS_ERROR -> d_status d' <> RGIOE_STATUS_ERROR).
Proof.
  induction cs as [|c cs IH]; intros d d' l F H; simpl in H.
  - injection H as <- _. split; [lia|auto].
  - destruct (api_do d c) as [[d1 a]|] eqn:E; [|discriminate].
    destruct (api_run d1 cs) as [[d2 l2]|] eqn:E2; [|discriminate]. injection H as <- _.
    inversion F; subst. destruct (do_status _ _ _ _ H1 E). destruct (IH _ _ _ H2 E2). split; [lia|auto].
Qed.

(** initialisation *)
Lemma init_ok d j ao n d' : api_init d j (Some ao) n = Some (d', RGIOE_OK) ->
  d_status d' = RGIOE_STATUS_INIT /\ d_opt d' = ao_rest ao /\ d_align d' = align_new (j_vpre j) (ao_rest ao) /\
  d_fusion d' = Some (fusion_new (j_ins j) (j_opt j)) /\ d_det d' = fusion_smooth /\
  (o_align_mode (ao_rest ao) = ALIGN_USE_GIVEN -> n = Some (d_given d')).
Proof.
  unfold api_init. destruct n as [p|].
  - intros H. injection H as <-. simpl. repeat split; auto.
  - destruct (Z.eqb_spec (o_align_mode (ao_rest ao)) ALIGN_USE_GIVEN); intros H; [discriminate|]. injection H as <-.
    simpl. repeat split; auto. intros; contradiction.
Qed.

(** C12 *)
Lemma status_history d j o n d0 cs1 cs2 d1 d2 l1 l2 : api_init d j o n = Some (d0, RGIOE_OK) ->
  Forall quiet (cs1 ++ cs2) -> api_run d0 cs1 = Some (d1, l1) -> api_run d1 cs2 = Some (d2, l2) ->
  (0 <= rank (d_status d1) <= rank (d_status d2) /\ rank (d_status d2) <= 3)%Z.
Proof.
  intros I F H1 H2. destruct o as [ao|]; [|discriminate]. destruct (init_ok _ _ _ _ _ I) as (S & _).
  apply Forall_app in F. destruct F as [F1 F2].
  destruct (run_status _ _ _ _ F1 H1) as [A B]. destruct (run_status _ _ _ _ F2 H2) as [A2 B2].
  rewrite S in A. simpl in A. split; [split; assumption|]. destruct (d_status d2); simpl; lia.
Qed.
Lemma status_answers d j o n d0 cs d1 l s : api_init d j o n = Some (d0, RGIOE_OK) ->
  Forall quiet cs -> api_run d0 cs = Some (d1, l) -> In (RStatus s) l -> s <> RGIOE_STATUS_ERROR.
Proof.
  intros I F H. destruct o as [ao|]; [|discriminate]. destruct (init_ok _ _ _ _ _ I) as (S & _).
  assert (N : d_status d0 <> RGIOE_STATUS_ERROR) by (rewrite S; discriminate). clear I S.
  revert d0 d1 l N F H. induction cs as [|c cs IH]; intros d0 d1 l N F H; simpl in H.
  - injection H as _ <-. contradiction.
  - destruct (api_do d0 c) as [[d2 a]|] eqn:E; [|discriminate].
    destruct (api_run d2 cs) as [[d3 l3]|] eqn:E2; [|discriminate]. injection H as -> <-.
    inversion F; subst. intros [K|K].
    + subst a. destruct c; simpl in E; try discriminate; try contradiction.
      * destruct (api_time d0 x) as [[]|]; discriminate.
      * destruct (api_gnss d0 g); discriminate.
      * injection E as <- <-. assumption.
    + eapply IH; [| |exact E2|exact K]; auto. destruct (do_status _ _ _ _ H1 E) as [_ B]. auto.
Qed.

(** C14 *)
Lemma null_time d : api_do d (ATime None) = Some (d, RCode RGIOE_NULL_INPUT).
Proof. reflexivity. Qed.
Lemma null_gnss d : api_do d (AGnss None) = Some (d, RCode RGIOE_NULL_INPUT).
Proof. reflexivity. Qed.
(** leaving a call out that does not change the device *)
Lemma run_without d0 cs1 c cs2 d1 l1 a : api_run d0 cs1 = Some (d1, l1) -> api_do d1 c = Some (d1, a) ->
  api_run d0 (cs1 ++ c :: cs2) =
  match api_run d1 cs2 with Some (d2, l2) => Some (d2, l1 ++ a :: l2) | None => None end.
Proof. intros H1 H2. rewrite api_run_app, H1. simpl. rewrite H2. destruct (api_run d1 cs2) as [[]|]; reflexivity. Qed.

(** C16 *)
Lemma reads_only d c : reads c -> exists a, api_do d c = Some (d, a).
Proof. destruct c; simpl; try contradiction; intros _; eexists; reflexivity. Qed.

(** the calls that reach the alignment, once the first sample has come / before *)
Fixpoint acalls (cs : list api_call) : list align_call :=
  match cs with
  | [] => [] | ATime (Some x) :: r => AlImu x :: acalls r | AGnss (Some g) :: r => AlGnss g :: acalls r | _ :: r => acalls r
  end.
Fixpoint acalls0 (cs : list api_call) : list align_call :=
  match cs with [] => [] | ATime (Some x) :: r => AlImu x :: acalls r | _ :: r => acalls0 r end.
Lemma acalls_imus cs : al_imus (acalls cs) = imus cs.
Proof. induction cs as [|[j o n|[x|]|[g|]| | | | |p| ] cs IH]; simpl; rewrite ?IH; reflexivity. Qed.
Lemma acalls_fixes cs : al_fixes (acalls cs) = fixes cs.
Proof. induction cs as [|[j o n|[x|]|[g|]| | | | |p| ] cs IH]; simpl; rewrite ?IH; reflexivity. Qed.
Lemma acalls0_imus cs : al_imus (acalls0 cs) = imus cs.
Proof. induction cs as [|[j o n|[x|]|[g|]| | | | |p| ] cs IH]; simpl; rewrite ?IH; auto. rewrite acalls_imus; reflexivity. Qed.
Lemma acalls0_fixes cs : al_fixes (acalls0 cs) = late_fixes cs.
Proof. induction cs as [|[j o n|[x|]|[g|]| | | | |p| ] cs IH]; simpl; rewrite ?IH; auto. apply acalls_fixes. Qed.

(** while the device aligns, its alignment has got exactly those calls *)
Definition aligning (s : status) : Prop := s = RGIOE_STATUS_ALIGN \/ s = RGIOE_STATUS_ATTITUDE.
Lemma align_track cs : forall d d' l, Forall quiet cs -> aligning (d_status d) -> api_run d cs = Some (d', l) ->
  d_status d' <> RGIOE_STATUS_NAVIGATION ->
  aligning (d_status d') /\ align_run (d_align d) (acalls cs) = Some (d_align d') /\ d_opt d' = d_opt d /\
  d_fusion d' = d_fusion d /\ d_det d' = d_det d /\ d_given d' = d_given d.
Proof.
  induction cs as [|c cs IH]; intros d d' l F A H N; simpl in H.
  - injection H as <- _. simpl. auto 8.
  - destruct (api_do d c) as [[d1 a]|] eqn:E; [|discriminate].
    destruct (api_run d1 cs) as [[d2 l2]|] eqn:E2; [|discriminate]. injection H as -> _. inversion F; subst.
    assert (N1 : d_status d1 <> RGIOE_STATUS_NAVIGATION).
    { intros K. destruct (run_status _ _ _ _ H2 E2) as [R _]. rewrite K in R. simpl in R. destruct (d_status d'); simpl in R; try lia; contradiction. }
    destruct c as [j o n|[x|]|[g|]| | | | |p| ]; simpl in E; try (injection E as <- _; simpl; eapply IH; eauto; fail).
    + contradiction.
    + unfold api_time in E. destruct A as [S|S]; rewrite S in E.
      * destruct (align_imu (d_align d) x) as [b|] eqn:Ea; [|discriminate]. injection E as <- _.
        assert (A1 : aligning (d_status (d_with_status (d_with_align d b) (if l_level b then RGIOE_STATUS_ATTITUDE else RGIOE_STATUS_ALIGN))))
          by (simpl; destruct (l_level b); [right|left]; reflexivity).
        destruct (IH _ _ _ H2 A1 E2 N) as (I1 & I2 & I3).
        simpl. rewrite Ea. simpl. auto.
      * destruct (align_imu (d_align d) x) as [b|] eqn:Ea; [|discriminate].
        destruct (l_level b && l_yaw b); injection E as <- _; [simpl in N1; contradiction|].
        destruct (IH (d_with_align d b) _ _ H2 (or_intror S) E2 N) as (I1 & I2 & I3).
        simpl. rewrite Ea. simpl. auto.
    + assert (X : api_gnss d (Some g) = (d_with_align d (align_gnss (d_align d) g), RGIOE_OK))
        by (unfold api_gnss; destruct A as [S|S]; rewrite S; reflexivity).
      change (api_do d (AGnss (Some g)) = Some (d1, a)) in E. cbn [api_do] in E. rewrite X in E. injection E as <- _.
      destruct (IH (d_with_align d (align_gnss (d_align d) g)) _ _ H2 A E2 N) as (I1 & I2 & I3). simpl. auto.
Qed.
Lemma align_track0 cs : forall d d' l, Forall quiet cs -> d_status d = RGIOE_STATUS_INIT ->
  o_align_mode (d_opt d) <> ALIGN_USE_GIVEN -> api_run d cs = Some (d', l) ->
  d_status d' <> RGIOE_STATUS_NAVIGATION ->
  (if imus cs then d' = d else aligning (d_status d')) /\ align_run (d_align d) (acalls0 cs) = Some (d_align d') /\
  d_opt d' = d_opt d /\ d_fusion d' = d_fusion d /\ d_det d' = d_det d /\ d_given d' = d_given d.
Proof.
  induction cs as [|c cs IH]; intros d d' l F S Mo H N; simpl in H.
  - injection H as <- _. simpl. auto 8.
  - destruct (api_do d c) as [[d1 a]|] eqn:E; [|discriminate].
    destruct (api_run d1 cs) as [[d2 l2]|] eqn:E2; [|discriminate]. injection H as -> _. inversion F; subst.
    destruct c as [j o n|[x|]|[g|]| | | | |p| ]; simpl in E; try (injection E as <- _; simpl; eapply IH; eauto; fail).
    + contradiction.
    + unfold api_time in E. rewrite S in E. destruct (Z.eqb_spec (o_align_mode (d_opt d)) ALIGN_USE_GIVEN); [contradiction|].
      destruct (align_imu (d_align d) x) as [b|] eqn:Ea; [|discriminate]. injection E as <- _.
      destruct (align_track _ (d_with_status (d_with_align d b) RGIOE_STATUS_ALIGN) _ _ H2 (or_introl eq_refl) E2 N) as (I1 & I2 & I3).
      simpl. rewrite Ea. simpl. auto.
    + unfold api_gnss in E. rewrite S in E. injection E as <- _. simpl. eapply IH; eauto.
Qed.

(** a device with a given state goes to navigation with its first sample *)
Lemma given_first d x : d_status d = RGIOE_STATUS_INIT -> o_align_mode (d_opt d) = ALIGN_USE_GIVEN ->
  forall d' e, api_time d (Some x) = Some (d', e) -> d_status d' = RGIOE_STATUS_NAVIGATION.
Proof.
  intros S Mo d' e. unfold api_time. rewrite S, Mo, Z.eqb_refl. destruct (df_time _ _ x) as [[]|]; intros H; [|discriminate].
  injection H as <- _. reflexivity.
Qed.

(** C13 *)
Lemma navigation_reason d j ao n d0 cs d1 l1 c d2 a : api_init d j (Some ao) n = Some (d0, RGIOE_OK) ->
  Forall quiet cs -> quiet c -> api_run d0 cs = Some (d1, l1) -> d_status d1 <> RGIOE_STATUS_NAVIGATION ->
  api_do d1 c = Some (d2, a) -> d_status d2 = RGIOE_STATUS_NAVIGATION ->
  (exists x, c = ATime (Some x)) /\
  ((o_align_mode (ao_rest ao) = ALIGN_USE_GIVEN /\ n <> None) \/
   (found_static (imus cs) /\ found_moving (o_align_vel (ao_rest ao)) (late_fixes cs))).
Proof.
  intros I F Qc H N Hc Nv. destruct (init_ok _ _ _ _ _ I) as (S & Ho & Ha & _ & _ & Hg).
  destruct (Z.eq_dec (o_align_mode (ao_rest ao)) ALIGN_USE_GIVEN) as [Mo|Mo].
  { split; [|left; split; [exact Mo|rewrite (Hg Mo); discriminate]].
    destruct c as [j' o' n'|[x|]|g| | | | |p| ]; simpl in Hc; try (injection Hc as <- _; contradiction).
    - contradiction.
    - eauto.
    - assert (G := gnss_status d1 g). destruct (api_gnss d1 g). injection Hc as <- _. simpl in G. rewrite G in Nv. contradiction. }
  destruct (align_track0 _ _ _ _ F S (eq_ind_r (fun o => o_align_mode o <> ALIGN_USE_GIVEN) Mo Ho) H N) as (A & R & Ro & _).
  rewrite Ha in R. destruct (align_flags _ _ _ _ R) as (_ & _ & _ & Hl & Hy).
  rewrite acalls0_imus in Hl. rewrite acalls0_fixes in Hy.
  destruct c as [j' o' n'|[x|]|g| | | | |p| ]; simpl in Hc; try (injection Hc as <- _; contradiction).
  - contradiction.
  - split; [eauto|]. right. unfold api_time in Hc. destruct (d_status d1) eqn:S1.
    + rewrite Ro, Ho in Hc. destruct (Z.eqb_spec (o_align_mode (ao_rest ao)) ALIGN_USE_GIVEN); [contradiction|].
      destruct (align_imu _ x); [|discriminate]. injection Hc as <- _. simpl in Nv. discriminate.
    + destruct (align_imu _ x) as [b|]; [|discriminate]. injection Hc as <- _. simpl in Nv. destruct (l_level b); discriminate.
    + destruct (align_imu (d_align d1) x) as [b|] eqn:Eb; [|discriminate].
      destruct (l_level b && l_yaw b) eqn:Lf; [|injection Hc as <- _; simpl in Nv; rewrite S1 in Nv; discriminate].
      apply andb_true_iff in Lf. destruct Lf as [L1 Y1].
      assert (Y : l_yaw b = l_yaw (d_align d1)).
      { unfold align_imu in Eb. destruct (smooth_update _ x) as [sm|]; [|discriminate].
        destruct (l_level (d_align d1)); [injection Eb as <-; reflexivity|]. destruct (is_static sm); injection Eb as <-; reflexivity. }
      split; [|apply Hy; rewrite <- Y; exact Y1].
      apply Hl. assert (K : forall cs d d' l, Forall quiet cs -> (d_status d = RGIOE_STATUS_ATTITUDE -> l_level (d_align d) = true) ->
         api_run d cs = Some (d', l) -> d_status d' = RGIOE_STATUS_ATTITUDE -> l_level (d_align d') = true).
      { clear. induction cs as [|c cs IH]; intros d d' l F A H T; simpl in H.
        - injection H as <- _. auto.
        - destruct (api_do d c) as [[d1 a]|] eqn:E; [|discriminate].
          destruct (api_run d1 cs) as [[d2 l2]|] eqn:E2; [|discriminate]. injection H as -> _. inversion F; subst.
          apply (IH _ _ _ H2) with (2 := E2); [|exact T]. intros T1.
          destruct c as [j o n|[x|]|[g|]| | | | |p| ]; simpl in E; try (injection E as <- _; auto; fail).
          + contradiction.
          + unfold api_time in E. destruct (d_status d) eqn:S.
            * destruct (o_align_mode (d_opt d) =? ALIGN_USE_GIVEN)%Z.
              -- destruct (df_time _ _ x) as [[f sm]|]; [|discriminate]. injection E as <- _. discriminate.
              -- destruct (align_imu _ x); [|discriminate]. injection E as <- _. discriminate.
            * destruct (align_imu _ x) as [b|]; [|discriminate]. injection E as <- _. simpl in *. destruct (l_level b); [reflexivity|discriminate].
            * specialize (A eq_refl). destruct (align_imu _ x) as [b|] eqn:Eb; [|discriminate].
              assert (Lb : l_level b = true).
              { unfold align_imu in Eb. destruct (smooth_update _ x) as [sm|]; [|discriminate].
                rewrite A in Eb. injection Eb as <-. reflexivity. }
              destruct (l_level b && l_yaw b); injection E as <- _; [discriminate|exact Lb].
            * destruct (df_time _ _ x) as [[f sm]|]; [|discriminate]. injection E as <- _. simpl in T1. rewrite S in T1. discriminate.
            * injection E as <- _. rewrite S in T1. discriminate.
          + unfold api_gnss in E. destruct (d_status d) eqn:S; injection E as <- _; simpl in *; rewrite ?S in T1; try discriminate.
            unfold align_gnss. destruct (is_zero _); simpl; auto. }
      apply (K _ _ _ _ F) with (2 := H); [|exact S1]. rewrite S. discriminate.
    + contradiction.
    + injection Hc as <- _. rewrite S1 in Nv. discriminate.
  - assert (G := gnss_status d1 g). destruct (api_gnss d1 g). injection Hc as <- _. simpl in G. rewrite G in Nv. contradiction.
Qed.

Lemma one_quiet y : Forall quiet [ATime (Some y)].
Proof. repeat constructor. Qed.
Lemma two_quiet x y : Forall quiet [ATime (Some x); ATime (Some y)].
Proof. repeat constructor. Qed.
(** and it does get there: two samples after both events *)
Lemma navigation_reached d j ao n d0 cs d1 l1 x y d2 l2 : api_init d j (Some ao) n = Some (d0, RGIOE_OK) ->
  Forall quiet cs -> o_align_mode (ao_rest ao) <> ALIGN_USE_GIVEN -> api_run d0 cs = Some (d1, l1) ->
  found_static (imus cs) -> found_moving (o_align_vel (ao_rest ao)) (late_fixes cs) ->
  api_run d1 [ATime (Some x); ATime (Some y)] = Some (d2, l2) -> d_status d2 = RGIOE_STATUS_NAVIGATION.
Proof.
  intros I F Mo H Fs Fm H2. destruct (init_ok _ _ _ _ _ I) as (S & Ho & Ha & _ & _ & _).
  assert (Dec : d_status d1 = RGIOE_STATUS_NAVIGATION \/ d_status d1 <> RGIOE_STATUS_NAVIGATION) by (destruct (d_status d1); auto; right; discriminate).
  destruct Dec as [N|N].
  { destruct (run_status _ _ _ _ (two_quiet x y) H2) as [R _].
    rewrite N in R. simpl in R. destruct (d_status d2); simpl in R; auto; lia. }
  destruct (align_track0 _ _ _ _ F S (eq_ind_r (fun o => o_align_mode o <> ALIGN_USE_GIVEN) Mo Ho) H N) as (A & R & Ro & _).
  rewrite Ha in R. destruct (align_flags _ _ _ _ R) as (_ & _ & _ & Hl & Hy).
  rewrite acalls0_imus in Hl. rewrite acalls0_fixes in Hy.
  apply Hl in Fs as L. apply Hy in Fm as Y. clear Hl Hy.
  destruct (imus cs) as [|x0 xs]; [destruct (found_static_nil Fs)|].
  assert (K : forall d z, l_level (d_align d) = true -> l_yaw (d_align d) = true -> forall d' l, aligning (d_status d) ->
     api_run d [ATime (Some z)] = Some (d', l) ->
     (d_status d' = RGIOE_STATUS_NAVIGATION \/ d_status d = RGIOE_STATUS_ALIGN /\ d_status d' = RGIOE_STATUS_ATTITUDE) /\
     (d_status d' = RGIOE_STATUS_ATTITUDE -> l_level (d_align d') = true /\ l_yaw (d_align d') = true)).
  { clear. intros d z L Y d' l A H. simpl in H. unfold api_time in H.
    assert (P : forall b, align_imu (d_align d) z = Some b -> l_level b = true /\ l_yaw b = true).
    { intros b. unfold align_imu. destruct (smooth_update _ z); [|discriminate]. rewrite L. intros K; injection K as <-. simpl. auto. }
    destruct (align_imu (d_align d) z) as [b|]; [destruct (P b eq_refl) as [P1 P2]|]; destruct A as [S|S]; rewrite S in H; try discriminate.
    - injection H as <- _. simpl. rewrite P1. auto.
    - rewrite P1, P2 in H. injection H as <- _. simpl. split; [left; reflexivity|discriminate]. }
  change [ATime (Some x); ATime (Some y)] with ([ATime (Some x)] ++ [ATime (Some y)]) in H2.
  rewrite api_run_app in H2. destruct (api_run d1 [ATime (Some x)]) as [[dm lm]|] eqn:E1; [|discriminate].
  destruct (api_run dm [ATime (Some y)]) as [[de le]|] eqn:E2; [|discriminate]. injection H2 as -> _.
  destruct (K _ _ L Y _ _ A E1) as [[T|[_ T]] Lv].
  - destruct (run_status _ _ _ _ (one_quiet y) E2) as [R2 _].
    rewrite T in R2. simpl in R2. destruct (d_status d2); simpl in R2; auto; lia.
  - destruct (Lv T) as [La Ya]. destruct (K _ _ La Ya _ _ (or_intror T) E2) as [[U|[U _]] _]; [exact U|rewrite U in T; discriminate].
Qed.
