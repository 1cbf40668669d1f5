(** Starting afresh: what uninitialised members and the shared gravity variable can influence. *)
From Coq Require Import Reals ZArith List Bool Lia Lra.
From Verif Require Import RealMath EarthModel ConvertModel SmoothModel SmoothSpec SmoothProofs SmoothProofs2 InsModel FusionBase
  KalmanModel FusionModel AlignModel ApiModel ApiSpec AlignProofs ApiProofs.
Import ListNotations.
Local Open Scope R_scope.

(** the members of Ins that no initialisation sets, and the shared gravity, taken from j *)
Definition mixed (i j : ins) : ins :=
  Ins (s_nav i) (s_dt i) (s_acce_pre i) (s_gyro_pre i) (s_wen j) (s_wie j) (s_vn_mid j) (s_pos_mid j) (s_g j).
Definition mixf (s : fusion) (j : ins) : fusion := set_ins s (mixed (f_ins s) j).
Definition omap {A B} (f : A -> B) (o : option A) : option B := match o with Some a => Some (f a) | None => None end.

Lemma extrapolate_mixed i j : extrapolate (mixed i j) = extrapolate i.
Proof. reflexivity. Qed.
Lemma mechanise_mixed i j a g : mechanise (mixed i j) a g = mechanise i a g.
Proof. unfold mechanise. rewrite extrapolate_mixed. reflexivity. Qed.
Lemma forward_mixed i j x : forward (mixed i j) x = forward i x.
Proof. unfold forward. change (compensate (mixed i j)) with (compensate i). change (s_nav (mixed i j)) with (s_nav i). rewrite mechanise_mixed. reflexivity. Qed.
Lemma feedback_mixed i j x : feedback (mixed i j) x = omap (fun t => mixed t j) (feedback i x).
Proof.
  unfold feedback. change (s_nav (mixed i j)) with (s_nav i). destruct (rates_defined (n_pos (s_nav i))); [|reflexivity].
  destruct (lla_opt _) as [ll|]; reflexivity.
Qed.
Lemma take_mixed s j : take_estimate (mixf s j) = mixf (take_estimate s) j.
Proof. unfold take_estimate. change (f_flag (mixf s j)) with (f_flag s). destruct (Z.ltb 0 (f_flag s)); reflexivity. Qed.
Lemma feed_mixed s j : feed (mixf s j) = omap (fun t => mixf t j) (feed s).
Proof.
  unfold feed. change (f_iter (mixf s j)) with (f_iter s). destruct (Z.ltb 0 (f_iter s)); [|reflexivity].
  change (share (mixf s j)) with (share s). change (f_ins (mixf s j)) with (mixed (f_ins s) j). rewrite feedback_mixed.
  destruct (feedback (f_ins s) _) as [i|]; reflexivity.
Qed.
Lemma propagate_mixed s j x : propagate (mixf s j) x = propagate s x.
Proof.
  unfold propagate. change (f_smooth (mixf s j)) with (f_smooth s). destruct (smooth_update (f_smooth s) x) as [sm|]; [|reflexivity].
  change (f_ins (mixf s j)) with (mixed (f_ins s) j). cbn [bind]. rewrite forward_mixed. reflexivity.
Qed.
Lemma time_mixed s j x : time_update (mixf s j) x = time_update s x.
Proof.
  unfold time_update. rewrite take_mixed, feed_mixed. destruct (feed (take_estimate s)) as [t|]; [|reflexivity].
  cbn [omap bind]. rewrite propagate_mixed. reflexivity.
Qed.
Lemma measure_mixed s j p r : measure_pos (mixf s j) p r = omap (fun t => mixf t j) (measure_pos s p r).
Proof.
  unfold measure_pos. change (f_opt (mixf s j)) with (f_opt s). change (f_kf (mixf s j)) with (f_kf s).
  change (pos_h (f_ins (mixf s j))) with (pos_h (f_ins s)). change (pos_z (f_ins (mixf s j))) with (pos_z (f_ins s)).
  match goal with |- bind ?k _ = _ => destruct k as [k1|] end; reflexivity.
Qed.
Lemma gnss_mixed s j g : gnss_update (mixf s j) g = omap (fun t => mixf t j) (gnss_update s g).
Proof.
  unfold gnss_update. destruct (gnss_check g); [|reflexivity].
  set (s1 := set_ins s _).
  change (set_ins (mixf s j) _) with (mixf s1 j). rewrite measure_mixed. change (f_opt (mixf s j)) with (f_opt s).
  destruct (measure_pos s1 _ _) as [t|]; reflexivity.
Qed.
Lemma output_mixed s j : output (mixf s j) = output s.
Proof. reflexivity. Qed.
Lemma initialize_mixed i1 o1 i2 o2 n o : exists j, initialize (fusion_new i2 o2) n o = omap (fun t => mixf t j) (initialize (fusion_new i1 o1) n o).
Proof.
  exists (init_pva i2 n (o_rate o)). unfold initialize.
  destruct (is_zero (o_rate o) || is_zero (o_gt_corr o) || is_zero (o_at_corr o)); reflexivity.
Qed.

(** two filters that differ only there *)
Definition similar (f1 f2 : option fusion) : Prop :=
  match f1, f2 with Some a, Some b => exists j, b = mixf a j | None, None => True | _, _ => False end.
Lemma similar_time f1 f2 x : similar f1 f2 -> bind f1 (fun s => time_update s x) = bind f2 (fun s => time_update s x).
Proof. destruct f1, f2; simpl; try contradiction; auto. intros [j ->]. rewrite time_mixed. reflexivity. Qed.
Lemma similar_refl f : similar f f.
Proof. destruct f as [s|]; simpl; auto. exists (f_ins s). destruct s as [[] ?]; reflexivity. Qed.
Lemma similar_gnss f1 f2 g : similar f1 f2 -> similar (bind f1 (fun s => gnss_update s g)) (bind f2 (fun s => gnss_update s g)).
Proof.
  destruct f1 as [a|], f2 as [b|]; simpl; try contradiction; auto. intros [j ->]. rewrite gnss_mixed.
  destruct (gnss_update a g) as [t|]; simpl; eauto.
Qed.
Lemma similar_output f1 f2 : similar f1 f2 -> bind f1 output = bind f2 output.
Proof. destruct f1, f2; simpl; try contradiction; auto. intros [j ->]. reflexivity. Qed.

(** two devices that answer alike from now on *)
Definition fresh (f : option fusion) : Prop := exists i o, f = Some (fusion_new i o).
Definition alike (d1 d2 : device) : Prop :=
  d_status d1 = d_status d2 /\ d_opt d1 = d_opt d2 /\ d_det d1 = d_det d2 /\
  (d_status d1 = RGIOE_STATUS_NAVIGATION /\ similar (d_fusion d1) (d_fusion d2) \/
   d_status d1 <> RGIOE_STATUS_NAVIGATION /\ fresh (d_fusion d1) /\ fresh (d_fusion d2) /\
   (o_align_mode (d_opt d1) = ALIGN_USE_GIVEN /\ d_status d1 = RGIOE_STATUS_INIT /\ d_given d1 = d_given d2 \/
    o_align_mode (d_opt d1) <> ALIGN_USE_GIVEN /\ d_align d1 = d_align d2)).

Lemma fresh_init f1 f2 n o : fresh f1 -> fresh f2 -> similar (df_init f1 n o) (df_init f2 n o).
Proof.
  intros (i1 & o1 & ->) (i2 & o2 & ->). unfold df_init. cbn [bind]. destruct n as [n|]; [|exact I]. cbn [bind].
  destruct (initialize_mixed i1 o1 i2 o2 n o) as [j E]. rewrite E. destruct (initialize (fusion_new i1 o1) n o); simpl; eauto.
Qed.

Lemma alike_step d1 d2 c : alike d1 d2 -> quiet c -> (solution_read c -> d_status d1 = RGIOE_STATUS_NAVIGATION) ->
  match api_do d1 c, api_do d2 c with
  | Some (e1, a1), Some (e2, a2) => alike e1 e2 /\ a1 = a2
  | None, None => True
  | _, _ => False
  end.
Proof.
  intros A Qc L. destruct A as (Es & Eo & Ed & H).
  destruct c as [j o n|x|g| | | | |p| ]; [contradiction| | | | | | | |].
  - (* sample *)
    destruct x as [x|].
    2: { simpl. split; [|reflexivity]. repeat split; auto. }
    cbn [api_do]. unfold api_time. rewrite <- Es. destruct H as [[S Sf]|(S & F1 & F2 & H)].
    + rewrite S. unfold df_time. rewrite <- Ed. destruct (smooth_update (d_det d1) x) as [sm|]; [|exact I].
      rewrite (similar_time _ _ x Sf). split; [|reflexivity]. repeat split; simpl; auto.
      left. split; [exact S|]. apply similar_refl.
    + destruct H as [(Mo & Si & Eg)|(Mo & Ea)].
      * rewrite Si. rewrite <- Eo, Mo, Z.eqb_refl, <- Eg. unfold df_time. rewrite <- Ed.
        destruct (smooth_update (d_det d1) x) as [sm|]; [|exact I]. split; [|reflexivity]. repeat split; simpl; auto.
        left. split; [reflexivity|].
        rewrite (similar_time _ _ x (fresh_init _ _ (given_nav (d_given d1) (d_opt d1)) (d_opt d1) F1 F2)). apply similar_refl.
      * rewrite <- Ea, <- Eo. destruct (d_status d1) eqn:Sd.
        -- destruct (Z.eqb_spec (o_align_mode (d_opt d1)) ALIGN_USE_GIVEN); [contradiction|].
           destruct (align_imu (d_align d1) x) as [a|]; [|exact I]. split; [|reflexivity]. repeat split; simpl; auto.
           right. repeat split; auto; discriminate.
        -- destruct (align_imu (d_align d1) x) as [a|]; [|exact I]. split; [|reflexivity]. repeat split; simpl; auto.
           right. repeat split; auto. destruct (l_level a); discriminate.
        -- destruct (align_imu (d_align d1) x) as [a|]; [|exact I]. destruct (l_level a && l_yaw a).
           ++ split; [|reflexivity]. repeat split; simpl; auto. left. split; [reflexivity|]. apply fresh_init; assumption.
           ++ split; [|reflexivity]. repeat split; simpl; auto; try congruence. right. rewrite Sd. repeat split; auto.
        -- contradiction.
        -- split; [|reflexivity]. repeat split; simpl; auto. congruence. right. rewrite Sd. repeat split; auto.
  - (* fix *)
    destruct g as [g|].
    2: { simpl. split; [|reflexivity]. repeat split; auto. }
    cbn [api_do]. unfold api_gnss. rewrite <- Es. destruct H as [[S Sf]|(S & F1 & F2 & H)].
    + rewrite S. split; [|reflexivity]. repeat split; simpl; auto. left. split; [exact S|]. apply similar_gnss. exact Sf.
    + destruct H as [(Mo & Si & Eg)|(Mo & Ea)].
      * rewrite Si. split; [|reflexivity]. repeat split; auto. right. repeat split; auto.
      * destruct (d_status d1) eqn:Sd; try contradiction; (split; [|reflexivity]; repeat split; simpl; auto; try congruence; right; rewrite Sd; repeat split; auto; try discriminate; right; split; auto; rewrite Ea; reflexivity).
  - specialize (L I). destruct H as [[S Sf]|(S & _)]; [|contradiction]. simpl. unfold api_atti, df_output. rewrite (similar_output _ _ Sf).
    split; [repeat split; auto|reflexivity].
  - specialize (L I). destruct H as [[S Sf]|(S & _)]; [|contradiction]. simpl. unfold api_pos, df_output. rewrite (similar_output _ _ Sf).
    split; [repeat split; auto|reflexivity].
  - specialize (L I). destruct H as [[S Sf]|(S & _)]; [|contradiction]. simpl. unfold api_vel, df_output. rewrite (similar_output _ _ Sf).
    split; [repeat split; auto|reflexivity].
  - simpl. rewrite Es. split; [repeat split; auto|reflexivity].
  - simpl. split; [repeat split; auto|]. f_equal. unfold api_result. rewrite <- Es. destruct H as [[S Sf]|(S & F1 & F2 & H)].
    + rewrite S. apply similar_output. exact Sf.
    + destruct H as [(Mo & Si & Eg)|(Mo & Ea)]; [rewrite Si; reflexivity|]. rewrite Ea. destruct (d_status d1); try reflexivity. contradiction.
  - simpl. split; [repeat split; auto|reflexivity].
Qed.

Lemma alike_run cs : forall d1 d2, alike d1 d2 -> Forall quiet cs -> reads_late d1 cs ->
  omap snd (api_run d1 cs) = omap snd (api_run d2 cs).
Proof.
  induction cs as [|c cs IH]; intros d1 d2 A F L; [reflexivity|]. inversion F; subst. destruct L as [L1 L2].
  assert (K := alike_step d1 d2 c A H1 L1). cbn [api_run]. destruct (api_do d1 c) as [[e1 a1]|], (api_do d2 c) as [[e2 a2]|]; try contradiction; [|reflexivity].
  destruct K as [K ->]. specialize (IH e1 e2 K H2 L2). destruct (api_run e1 cs) as [[]|], (api_run e2 cs) as [[]|]; simpl in *; try discriminate; auto.
  injection IH as ->. reflexivity.
Qed.

(** C18: whatever the device did before and whatever uninitialised memory holds *)
Lemma fresh_start d1 d2 j1 j2 ao n e1 e2 cs : api_init d1 j1 (Some ao) n = Some (e1, RGIOE_OK) -> api_init d2 j2 (Some ao) n = Some (e2, RGIOE_OK) ->
  o_align_mode (ao_rest ao) = ALIGN_USE_GIVEN \/ j_vpre j1 = j_vpre j2 -> Forall quiet cs -> reads_late e1 cs ->
  omap snd (api_run e1 cs) = omap snd (api_run e2 cs).
Proof.
  intros I1 I2 J F L. apply alike_run; auto.
  destruct (init_ok _ _ _ _ _ I1) as (S1 & O1 & A1 & F1 & D1 & G1).
  destruct (init_ok _ _ _ _ _ I2) as (S2 & O2 & A2 & F2 & D2 & G2).
  repeat split; try congruence. right. split; [rewrite S1; discriminate|]. rewrite F1, F2, O1, A1, A2.
  split; [eexists; eexists; reflexivity|]. split; [eexists; eexists; reflexivity|].
  destruct (Z.eq_dec (o_align_mode (ao_rest ao)) ALIGN_USE_GIVEN) as [Mo|Mo].
  - left. repeat split; auto. assert (Some (d_given e1) = Some (d_given e2)) as K by (rewrite <- (G1 Mo), <- (G2 Mo); reflexivity). congruence.
  - right. split; auto. destruct J as [J|J]; [contradiction|]. rewrite J. reflexivity.
Qed.

(** ** the shared gravity variable: before every call it may have been overwritten *)
Definition with_g (i : ins) (g : R) : ins :=
  Ins (s_nav i) (s_dt i) (s_acce_pre i) (s_gyro_pre i) (s_wen i) (s_wie i) (s_vn_mid i) (s_pos_mid i) g.
Definition disturb (d : device) (g : R) : device :=
  d_with_fusion d (omap (fun s => set_ins s (with_g (f_ins s) g)) (d_fusion d)) (d_det d).
Fixpoint disturbed_run (d : device) (cs : list (R * api_call)) : option (list answer) :=
  match cs with
  | [] => Some []
  | (g, c) :: r =>
    match api_do (disturb d g) c with
    | None => None
    | Some (d1, a) => match disturbed_run d1 r with None => None | Some l => Some (a :: l) end
    end
  end.
(** equal but for the parts of the filter that [mixed] replaces *)
Definition same_but (d1 d2 : device) : Prop :=
  d_status d1 = d_status d2 /\ d_opt d1 = d_opt d2 /\ d_det d1 = d_det d2 /\ d_align d1 = d_align d2 /\
  d_given d1 = d_given d2 /\ similar (d_fusion d1) (d_fusion d2).
Lemma init_mixed s j n o : similar (initialize s n o) (initialize (mixf s j) n o).
Proof.
  unfold initialize. destruct (is_zero (o_rate o) || is_zero (o_gt_corr o) || is_zero (o_at_corr o)); [exact I|].
  exists (init_pva (mixed (f_ins s) j) n (o_rate o)). reflexivity.
Qed.
Lemma similar_init f1 f2 n o : similar f1 f2 -> similar (df_init f1 n o) (df_init f2 n o).
Proof.
  destruct f1 as [a|], f2 as [b|]; simpl; try contradiction; auto. intros [j ->]. unfold df_init. cbn [bind].
  destruct n as [n|]; [|exact I]. apply init_mixed.
Qed.
Lemma mixf_mixf s i j : mixf (mixf s i) j = mixf s j.
Proof. reflexivity. Qed.
Lemma same_step d1 d2 c : same_but d1 d2 -> 
  match api_do d1 c, api_do d2 c with
  | Some (e1, a1), Some (e2, a2) => same_but e1 e2 /\ a1 = a2
  | None, None => True
  | _, _ => False
  end.
Proof.
  destruct d1 as [s1 o1 g1 a1 f1 t1], d2 as [s2 o2 g2 a2 f2 t2]. intros (E1 & E2 & E3 & E4 & E5 & Sf). cbn [d_status d_opt d_det d_align d_given d_fusion] in *. subst.
  destruct c as [j o n|x|g| | | | |p| ].
  - cbn [api_do]. unfold api_init. destruct o as [ao|]; [|exact I]. destruct n as [p|].
    + split; [|reflexivity]. repeat split. apply similar_refl.
    + destruct (_ =? _)%Z; (split; [|reflexivity]; repeat split; apply similar_refl).
  - cbn [api_do]. unfold api_time. destruct x as [x|]; [|split; [repeat split; auto|reflexivity]].
    cbn [d_status d_opt d_det d_align d_given d_fusion]. destruct s2.
    + destruct (_ =? _)%Z.
      * unfold df_time. destruct (smooth_update t2 x) as [sm|]; [|exact I]. split; [|reflexivity]. repeat split. simpl.
        rewrite (similar_time _ _ x (similar_init _ _ (given_nav g2 o2) o2 Sf)). apply similar_refl.
      * destruct (align_imu a2 x); [|exact I]. split; [|reflexivity]. repeat split; auto.
    + destruct (align_imu a2 x); [|exact I]. split; [|reflexivity]. repeat split; auto.
    + destruct (align_imu a2 x) as [b|]; [|exact I]. destruct (l_level b && l_yaw b).
      * split; [|reflexivity]. repeat split. simpl. apply similar_init. exact Sf.
      * split; [|reflexivity]. repeat split; auto.
    + unfold df_time. destruct (smooth_update t2 x) as [sm|]; [|exact I]. split; [|reflexivity]. repeat split. simpl.
      rewrite (similar_time _ _ x Sf). apply similar_refl.
    + split; [|reflexivity]. repeat split; auto.
  - cbn [api_do]. unfold api_gnss. destruct g as [g|]; [|split; [repeat split; auto|reflexivity]].
    cbn [d_status d_opt d_det d_align d_given d_fusion]. destruct s2; (split; [|reflexivity]; repeat split; auto).
    simpl. apply similar_gnss. exact Sf.
  - simpl. unfold api_atti, df_output. simpl. rewrite (similar_output _ _ Sf). split; [repeat split; auto|reflexivity].
  - simpl. unfold api_pos, df_output. simpl. rewrite (similar_output _ _ Sf). split; [repeat split; auto|reflexivity].
  - simpl. unfold api_vel, df_output. simpl. rewrite (similar_output _ _ Sf). split; [repeat split; auto|reflexivity].
  - simpl. split; [repeat split; auto|reflexivity].
  - simpl. split; [repeat split; auto|]. f_equal. unfold api_result, df_output. simpl. rewrite (similar_output _ _ Sf). reflexivity.
  - simpl. split; [repeat split; auto|reflexivity].
Qed.
Lemma disturb_same d1 d2 g : same_but d1 d2 -> same_but d1 (disturb d2 g).
Proof.
  intros (E1 & E2 & E3 & E4 & E5 & Sf). repeat split; simpl; auto. destruct (d_fusion d1) as [a|], (d_fusion d2) as [b|]; simpl in *; try contradiction; auto.
  destruct Sf as [j ->]. exists (with_g j g). reflexivity.
Qed.
Lemma undisturbed cs : forall d1 d2, same_but d1 d2 -> disturbed_run d2 cs = omap snd (api_run d1 (map snd cs)).
Proof.
  induction cs as [|[g c] cs IH]; intros d1 d2 S; [reflexivity|]. cbn [disturbed_run map snd api_run].
  assert (K := same_step d1 (disturb d2 g) c (disturb_same _ _ g S)).
  destruct (api_do d1 c) as [[e1 a1]|], (api_do (disturb d2 g) c) as [[e2 a2]|]; try contradiction; [|reflexivity].
  destruct K as [K ->]. rewrite (IH _ _ K). destruct (api_run e1 (map snd cs)) as [[]|]; reflexivity.
Qed.
Lemma gravity_shared d cs : disturbed_run d cs = omap snd (api_run d (map snd cs)).
Proof. apply undisturbed. repeat split. apply similar_refl. Qed.

(** ** two devices in one process, calls in any order; the gravity variable is shared *)
Definition gravity_left (d : device) (g : R) : R := match d_fusion d with Some s => s_g (f_ins s) | None => g end.
Fixpoint two_run (d1 d2 : device) (g : R) (cs : list (bool * api_call)) : option (list (bool * answer)) :=
  match cs with
  | [] => Some []
  | (k, c) :: r =>
    match api_do (disturb (if k then d1 else d2) g) c with
    | None => None
    | Some (d, a) =>
      match two_run (if k then d else d1) (if k then d2 else d) (gravity_left d g) r with
      | None => None | Some l => Some ((k, a) :: l)
      end
    end
  end.
(** what belongs to one of them *)
Fixpoint of_device {A} (k : bool) (l : list (bool * A)) : list A :=
  match l with [] => [] | (k', a) :: r => if Bool.eqb k k' then a :: of_device k r else of_device k r end.
Lemma two_apart cs : forall d1 d2 e1 e2 g l, same_but e1 d1 -> same_but e2 d2 -> two_run d1 d2 g cs = Some l ->
  omap snd (api_run e1 (of_device true cs)) = Some (of_device true l) /\
  omap snd (api_run e2 (of_device false cs)) = Some (of_device false l).
Proof.
  induction cs as [|[k c] cs IH]; intros d1 d2 e1 e2 g l S1 S2 H; cbn [two_run] in H.
  - injection H as <-. split; reflexivity.
  - destruct k; cbn [of_device Bool.eqb].
    + assert (K := same_step e1 (disturb d1 g) c (disturb_same _ _ g S1)).
      destruct (api_do (disturb d1 g) c) as [[d a]|]; [|discriminate].
      destruct (api_do e1 c) as [[e b]|] eqn:E; try contradiction. destruct K as [K ->].
      destruct (two_run d d2 (gravity_left d g) cs) as [l'|] eqn:T; [|discriminate]. injection H as <-.
      destruct (IH _ _ _ _ _ _ K S2 T) as [I1 I2]. cbn [of_device Bool.eqb api_run]. rewrite E.
      destruct (api_run e (of_device true cs)) as [[]|]; simpl in *; try discriminate. injection I1 as ->. auto.
    + assert (K := same_step e2 (disturb d2 g) c (disturb_same _ _ g S2)).
      destruct (api_do (disturb d2 g) c) as [[d a]|]; [|discriminate].
      destruct (api_do e2 c) as [[e b]|] eqn:E; try contradiction. destruct K as [K ->].
      destruct (two_run d1 d (gravity_left d g) cs) as [l'|] eqn:T; [|discriminate]. injection H as <-.
      destruct (IH _ _ _ _ _ _ S1 K T) as [I1 I2]. cbn [of_device Bool.eqb api_run]. rewrite E.
      destruct (api_run e (of_device false cs)) as [[]|]; simpl in *; try discriminate. injection I2 as ->. auto.
Qed.
Lemma same_refl d : same_but d d.
Proof. repeat split. apply similar_refl. Qed.
Lemma two_devices d1 d2 g cs l : two_run d1 d2 g cs = Some l ->
  omap snd (api_run d1 (of_device true cs)) = Some (of_device true l) /\
  omap snd (api_run d2 (of_device false cs)) = Some (of_device false l).
Proof. apply two_apart; apply same_refl. Qed.
