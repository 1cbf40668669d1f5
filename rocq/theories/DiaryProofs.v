(** Proofs about the recording. *)
From Coq Require Import Reals ZArith List Bool Lia Lra.
From Verif Require Import RealMath EarthModel ConvertModel SmoothModel InsModel FusionBase FusionModel AlignModel AhrsModel ApiModel
  ApiSpec ApiProofs AlignHeading DiaryModel DiarySpec.
Import ListNotations.
Local Open Scope R_scope.

Lemma imu_part_app a b : imu_part (a ++ b) = imu_part a ++ imu_part b.
Proof. induction a as [|[] a IH]; simpl; rewrite ?IH; reflexivity. Qed.
Lemma bias_part_app a b : bias_part (a ++ b) = bias_part a ++ bias_part b.
Proof. induction a as [|[] a IH]; simpl; rewrite ?IH; reflexivity. Qed.
Lemma fix_part_app a b : fix_part (a ++ b) = fix_part a ++ fix_part b.
Proof. induction a as [|[] a IH]; simpl; rewrite ?IH; reflexivity. Qed.
Lemma inno_part_app a b : inno_part (a ++ b) = inno_part a ++ inno_part b.
Proof. induction a as [|[] a IH]; simpl; rewrite ?IH; reflexivity. Qed.

(** the calls act on the device as without the recorder *)
Lemma diary_api y c y' m : diary_do y c = Some (y', m) -> exists a, api_do (y_dev y) c = Some (y_dev y', a).
Proof.
  destruct c as [j [ao|] n|[x|]|[g|]| | | | |p| ]; cbn [diary_do]; intros H;
    try (destruct (api_do (y_dev y) _) as [[d' a]|]; [|discriminate]; injection H as <- _; eauto; fail).
  - unfold diary_time in H. cbn [api_do]. destruct (api_time _ _) as [[d' e]|]; [|discriminate].
    exists (RCode e). destruct (d_status (y_dev y)).
    + destruct (_ =? _)%Z; [injection H as <- _; reflexivity|]. destruct (align_imu_msgs _ _ _). injection H as <- _; reflexivity.
    + destruct (align_imu_msgs _ _ _). destruct (d_status d'); injection H as <- _; reflexivity.
    + destruct (align_imu_msgs _ _ _). destruct (d_status d'); injection H as <- _; reflexivity.
    + injection H as <- _; reflexivity.
    + injection H as <- _; reflexivity.
  - cbn [api_do]. destruct (api_gnss (y_dev y) (Some g)) as [d' e] eqn:E. exists (RCode e).
    assert (F : y_dev y' = d'). { unfold diary_gnss in H. rewrite E in H. simpl in H. destruct (d_status (y_dev y)); injection H as <- _; reflexivity. }
    rewrite F. reflexivity.
Qed.
Lemma diary_run_api cs : forall y y' m, diary_run y cs = Some (y', m) -> exists l, api_run (y_dev y) cs = Some (y_dev y', l).
Proof.
  induction cs as [|c cs IH]; intros y y' m H; simpl in H; [injection H as <- _; simpl; eauto|].
  destruct (diary_do y c) as [[y1 m1]|] eqn:E; [|discriminate]. destruct (diary_run y1 cs) as [[y2 m2]|] eqn:E2; [|discriminate].
  injection H as <- _. destruct (diary_api _ _ _ _ E) as [a Ea]. destruct (IH _ _ _ E2) as [l El]. simpl. rewrite Ea, El. eauto.
Qed.
Lemma diary_run_app a : forall b y y' l, diary_run y (a ++ b) = Some (y', l) ->
  exists y1 l1 l2, diary_run y a = Some (y1, l1) /\ diary_run y1 b = Some (y', l2) /\ l = l1 ++ l2.
Proof.
  induction a as [|c a IH]; intros b y y' l H; [exists y, [], l; auto|]. simpl in H. destruct (diary_do y c) as [[y1 m1]|] eqn:E; [|discriminate].
  destruct (diary_run y1 (a ++ b)) as [[y2 m2]|] eqn:E2; [|discriminate]. injection H as <- <-.
  destruct (IH _ _ _ _ E2) as (y3 & l1 & l2 & A & B & ->). exists y3, (m1 ++ l1), l2. simpl. rewrite E, A. rewrite app_assoc. auto.
Qed.

(** ** the device follows: navigating, or about to with a given state *)
Definition navigating (y : diary) : Prop := d_status (y_dev y) = RGIOE_STATUS_NAVIGATION.
Definition about (y : diary) : Prop := d_status (y_dev y) = RGIOE_STATUS_INIT /\ o_align_mode (d_opt (y_dev y)) = ALIGN_USE_GIVEN.

Lemma nav_sample y x y' m : navigating y -> diary_do y (ATime (Some x)) = Some (y', m) ->
  navigating y' /\ y_time y' = i_gpst x /\ y_first y' = y_first y /\ m = time_msgs (d_fusion (y_dev y')) x /\
  d_opt (y_dev y') = d_opt (y_dev y).
Proof.
  unfold navigating. intros N H. cbn [diary_do] in H. unfold diary_time in H. rewrite N in H. unfold api_time in H. rewrite N in H.
  destruct (df_time _ _ _) as [[f sm]|]; [|discriminate]. injection H as <- <-. simpl. auto.
Qed.
Lemma about_sample y x y' m : about y -> diary_do y (ATime (Some x)) = Some (y', m) ->
  navigating y' /\ y_time y' = i_gpst x /\ y_first y' = start_of (given_nav (d_given (y_dev y)) (d_opt (y_dev y))) /\
  m = time_msgs (d_fusion (y_dev y')) x /\ d_opt (y_dev y') = d_opt (y_dev y).
Proof.
  unfold navigating. intros [N G] H. cbn [diary_do] in H. unfold diary_time in H. rewrite N in H. unfold api_time in H. rewrite N, G in H.
  simpl (_ =? _)%Z in H. cbv iota in H. destruct (df_time _ _ _) as [[f sm]|]; [|discriminate]. injection H as <- <-. simpl. auto.
Qed.
Lemma nav_other y c y' m : navigating y -> quiet c -> (forall x, c <> ATime (Some x)) -> diary_do y c = Some (y', m) ->
  navigating y' /\ y_time y' = y_time y /\ y_first y' = y_first y /\ d_opt (y_dev y') = d_opt (y_dev y) /\
  m = match c with AGnss (Some g) => fix_msgs (y_time y) (y_first y) (d_fusion (y_dev y)) (d_opt (y_dev y)) g | _ => [] end.
Proof.
  unfold navigating. intros N Q NT H. destruct c as [j o n|[x|]|[g|]| | | | |p| ]; try contradiction; try (exfalso; eapply NT; reflexivity);
    try (cbn in H; injection H as <- <-; auto; fail).
  cbn [diary_do] in H. unfold diary_gnss in H. rewrite N in H. injection H as <- <-. simpl. rewrite N. simpl. auto.
Qed.
Lemma about_other y c y' m : about y -> quiet c -> (forall x, c <> ATime (Some x)) -> diary_do y c = Some (y', m) ->
  about y' /\ m = [] /\ d_given (y_dev y') = d_given (y_dev y) /\ d_opt (y_dev y') = d_opt (y_dev y).
Proof.
  unfold about. intros [N G] Q NT H. destruct c as [j o n|[x|]|[g|]| | | | |p| ]; try contradiction; try (exfalso; eapply NT; reflexivity);
    try (cbn in H; injection H as <- <-; auto; fail).
  cbn [diary_do] in H. unfold diary_gnss, api_gnss in H. rewrite N in H. injection H as <- <-. simpl. rewrite N. auto.
Qed.

(** ** recorded samples *)
Lemma nav_run_samples cs : forall y y' l, navigating y -> Forall quiet cs -> diary_run y cs = Some (y', l) ->
  navigating y' /\ imu_part l = map as_given (imus cs) /\ map fst (bias_part l) = map i_gpst (imus cs).
Proof.
  induction cs as [|c cs IH]; intros y y' l N F H; simpl in H; [injection H as <- <-; auto|].
  destruct (diary_do y c) as [[y1 m1]|] eqn:E; [|discriminate]. destruct (diary_run y1 cs) as [[y2 m2]|] eqn:E2; [|discriminate].
  injection H as <- <-. inversion F; subst.
  assert (D : (exists x, c = ATime (Some x)) \/ (forall x, c <> ATime (Some x))).
  { destruct c as [| [x|] | | | | | | |]; try (right; congruence). left; eauto. }
  destruct D as [[x ->]|D].
  - destruct (nav_sample _ _ _ _ N E) as (N1 & _ & _ & -> & _). destruct (IH _ _ _ N1 H2 E2) as (N2 & A & B).
    split; [exact N2|]. rewrite imu_part_app, bias_part_app, map_app, A, B. auto.
  - destruct (nav_other _ _ _ _ N H1 D E) as (N1 & _ & _ & _ & M). destruct (IH _ _ _ N1 H2 E2) as (N2 & A & B).
    split; [exact N2|]. rewrite imu_part_app, bias_part_app, map_app, A, B.
    assert (Z : imu_part m1 = [] /\ bias_part m1 = [] /\ imus (c :: cs) = imus cs).
    { subst m1. destruct c as [|[x|]|[g|]| | | | | | ]; auto; [exfalso; eapply D; reflexivity|].
      unfold fix_msgs. destruct (gnss_check g); auto. }
    destruct Z as (-> & -> & ->). auto.
Qed.
Lemma about_run_samples cs : forall y y' l, about y -> Forall quiet cs -> diary_run y cs = Some (y', l) ->
  imu_part l = map as_given (imus cs) /\ map fst (bias_part l) = map i_gpst (imus cs).
Proof.
  induction cs as [|c cs IH]; intros y y' l N F H; simpl in H; [injection H as <- <-; auto|].
  destruct (diary_do y c) as [[y1 m1]|] eqn:E; [|discriminate]. destruct (diary_run y1 cs) as [[y2 m2]|] eqn:E2; [|discriminate].
  injection H as <- <-. inversion F; subst.
  assert (D : (exists x, c = ATime (Some x)) \/ (forall x, c <> ATime (Some x))).
  { destruct c as [| [x|] | | | | | | |]; try (right; congruence). left; eauto. }
  destruct D as [[x ->]|D].
  - destruct (about_sample _ _ _ _ N E) as (N1 & _ & _ & -> & _). destruct (nav_run_samples cs _ _ _ N1 H2 E2) as (N2 & A & B).
    rewrite imu_part_app, bias_part_app, map_app, A, B. auto.
  - destruct (about_other _ _ _ _ N H1 D E) as (N1 & -> & _ & _). destruct (IH _ _ _ N1 H2 E2) as (A & B).
    simpl. rewrite A, B. destruct c as [|[x|]|[g|]| | | | | | ]; auto. exfalso; eapply D; reflexivity.
Qed.
Lemma started_about y ao p : started y ao p -> about y /\ d_given (y_dev y) = p /\ d_opt (y_dev y) = ao_rest ao.
Proof.
  intros (y0 & j & G & H). unfold about. simpl in H. inversion H; subst. simpl. auto.
Qed.
Lemma given_samples y ao p cs y' l : started y ao p -> Forall quiet cs -> diary_run y cs = Some (y', l) ->
  imu_part l = map as_given (imus cs) /\ map fst (bias_part l) = map i_gpst (imus cs).
Proof. intros S F H. destruct (started_about _ _ _ S) as [A _]. eapply about_run_samples; eauto. Qed.

(** no sample is recorded by an alignment *)
Definition not_yet (y : diary) : Prop := (rank (d_status (y_dev y)) < 3)%Z /\
  (d_status (y_dev y) = RGIOE_STATUS_INIT -> o_align_mode (d_opt (y_dev y)) <> ALIGN_USE_GIVEN).
Lemma align_msgs_no_imu a h x : imu_part (snd (align_imu_msgs a h x)) = [] /\ fix_part (snd (align_imu_msgs a h x)) = [].
Proof. unfold align_imu_msgs. destruct (l_level a); auto. Qed.
Lemma align_fix_no_imu a g : imu_part (align_fix_msgs a g) = [] /\ fix_part (align_fix_msgs a g) = [].
Proof. unfold align_fix_msgs. destruct (is_zero _); auto. Qed.
Lemma not_yet_call y c y' m : not_yet y -> quiet c -> diary_do y c = Some (y', m) ->
  imu_part m = [] /\ fix_part m = [] /\ (d_status (y_dev y') = RGIOE_STATUS_INIT -> o_align_mode (d_opt (y_dev y')) <> ALIGN_USE_GIVEN).
Proof.
  intros [R1 G] Q H. destruct c as [j o n|[x|]|[g|]| | | | |p| ]; try contradiction; try (cbn in H; injection H as <- <-; auto; fail).
  - cbn [diary_do] in H. unfold diary_time in H. destruct (api_time _ _) as [[d' e]|] eqn:E; [|discriminate].
    unfold api_time in E. destruct (d_status (y_dev y)) eqn:S; simpl in R1; try lia.
    + assert (B : (o_align_mode (d_opt (y_dev y)) =? ALIGN_USE_GIVEN)%Z = false) by (apply Z.eqb_neq; auto). rewrite B in *.
      destruct (align_imu _ x) as [a|]; [|discriminate]. injection E as <- _.
      destruct (align_msgs_no_imu (d_align (y_dev y)) (y_ahrs y) x) as [Z1 Z2]. destruct (align_imu_msgs _ _ _). injection H as <- <-. simpl in *.
      split; [exact Z1|]. split; [exact Z2|]. intros X; discriminate X.
    + destruct (align_imu _ x) as [a|]; [|discriminate]. injection E as <- _.
      destruct (align_msgs_no_imu (d_align (y_dev y)) (y_ahrs y) x) as [Z1 Z2]. destruct (align_imu_msgs _ _ _). simpl in *.
      destruct (l_level a); injection H as <- <-; simpl; (split; [exact Z1|split; [exact Z2|intros X; discriminate X]]).
    + destruct (align_imu _ x) as [a|]; [|discriminate].
      destruct (align_msgs_no_imu (d_align (y_dev y)) (y_ahrs y) x) as [Z1 Z2]. destruct (align_imu_msgs _ _ _).
      destruct (l_level a && l_yaw a); injection E as <- _; simpl in *; try rewrite S in H; inversion H; subst y' m; clear H; simpl; try rewrite S; (split; [exact Z1|split; [exact Z2|intros X; discriminate X]]).

    + injection E as <- _. inversion H; subst. simpl. rewrite S. auto.
  - cbn [diary_do] in H. unfold diary_gnss, api_gnss in H. destruct (d_status (y_dev y)) eqn:S; simpl in R1; try lia;
      injection H as <- <-; simpl; rewrite ?S; destruct (align_fix_no_imu (d_align (y_dev y)) g) as [Z1 Z2];
      (split; [auto|split; [auto|intros X; try discriminate X; auto]]).
Qed.
Lemma not_yet_run cs : forall y y' l, not_yet y -> Forall quiet cs -> diary_run y cs = Some (y', l) -> (rank (d_status (y_dev y')) < 3)%Z ->
  imu_part l = [] /\ fix_part l = [] /\ not_yet y'.
Proof.
  induction cs as [|c cs IH]; intros y y' l N F H Rk; simpl in H; [injection H as <- <-; auto|].
  destruct (diary_do y c) as [[y1 m1]|] eqn:E; [|discriminate]. destruct (diary_run y1 cs) as [[y2 m2]|] eqn:E2; [|discriminate].
  injection H as <- <-. inversion F; subst. destruct (diary_run_api _ _ _ _ E2) as [ll El]. destruct (run_status _ _ _ _ H2 El) as [Mono _].
  destruct (not_yet_call _ _ _ _ N H1 E) as (Z1 & Z2 & I1). assert (N1 : not_yet y1) by (split; [lia|exact I1]).
  destruct (IH _ _ _ N1 H2 E2 Rk) as (A & B & C). rewrite imu_part_app, fix_part_app, Z1, Z2, A, B. auto.
Qed.
(** up to and with the call that starts navigation, an alignment leaves no sample and no fix in the recording *)
Lemma alignment_unrecorded y ao cs c y1 l1 y2 l2 : started_aligning y ao -> Forall quiet (cs ++ [c]) ->
  diary_run y cs = Some (y1, l1) -> d_status (y_dev y1) <> RGIOE_STATUS_NAVIGATION -> diary_do y1 c = Some (y2, l2) ->
  imu_part (l1 ++ l2) = [] /\ fix_part (l1 ++ l2) = [].
Proof.
  intros S F H N Hc. apply Forall_app in F. destruct F as [F Fc]. inversion Fc; subst.
  assert (N0 : not_yet y).
  { destruct S as (y0 & j & n & G & Hi). cbn [diary_do api_do] in Hi. unfold api_init in Hi. unfold not_yet. destruct n as [p|].
    - inversion Hi; subst. simpl. split; [lia|auto].
    - destruct (Z.eqb_spec (o_align_mode (ao_rest ao)) ALIGN_USE_GIVEN); [contradiction|]. inversion Hi; subst. simpl. split; [lia|auto]. }
  assert (Rk : (rank (d_status (y_dev y1)) < 3)%Z) by (destruct (d_status (y_dev y1)); simpl; try lia; contradiction).
  destruct (not_yet_run _ _ _ _ N0 F H Rk) as (A & B & N1). destruct (not_yet_call _ _ _ _ N1 H2 Hc) as (Z1 & Z2 & _).
  rewrite imu_part_app, fix_part_app, A, B, Z1, Z2. auto.
Qed.

(** ** recorded biases: those a result read at that moment reports *)
Lemma bias_reported y x y' m p d q : navigating y \/ about y -> diary_do y (ATime (Some x)) = Some (y', m) ->
  api_do (y_dev y') (AResult p) = Some (d, RPva (Some q)) -> bias_part m = [(i_gpst x, Some (p_ab q, p_gb q))].
Proof.
  intros Hy H Hr.
  assert (M : navigating y' /\ m = time_msgs (d_fusion (y_dev y')) x).
  { destruct Hy as [N|N]; [destruct (nav_sample _ _ _ _ N H)|destruct (about_sample _ _ _ _ N H)]; tauto. }
  destruct M as [N ->]. cbn [api_do] in Hr. injection Hr as _ Hq. unfold api_result in Hq. rewrite N in Hq.
  unfold df_output in Hq. destruct (d_fusion (y_dev y')) as [s|]; [|discriminate]. simpl in Hq. unfold output in Hq.
  destruct (out_place s) as [pos|]; [|discriminate]. injection Hq as <-. reflexivity.
Qed.

(** ** recorded fixes *)
Definition fix_entry (o : option_t) (first : option vec) (tg : R * gnss) : R * option vec * Z :=
  (fst tg, bind first (fun p => Some (distance6 (g_lat (snd tg) * deg) (g_lon (snd tg) * deg) (vx p) (vy p) (g_height (snd tg)) (vz p))),
   (g_mode (snd tg) mod 256)%Z).
Lemma nav_run_fixes cs : forall y y' l, navigating y -> Forall quiet cs -> diary_run y cs = Some (y', l) ->
  fix_part l = map (fix_entry (d_opt (y_dev y)) (y_first y)) (fixes_at (Some (y_time y)) cs).
Proof.
  induction cs as [|c cs IH]; intros y y' l N F H; simpl in H; [injection H as <- <-; auto|].
  destruct (diary_do y c) as [[y1 m1]|] eqn:E; [|discriminate]. destruct (diary_run y1 cs) as [[y2 m2]|] eqn:E2; [|discriminate].
  injection H as <- <-. inversion F; subst.
  assert (D : (exists x, c = ATime (Some x)) \/ (forall x, c <> ATime (Some x))).
  { destruct c as [| [x|] | | | | | | |]; try (right; congruence). left; eauto. }
  destruct D as [[x ->]|D].
  - destruct (nav_sample _ _ _ _ N E) as (N1 & T1 & F1 & -> & _). specialize (IH _ _ _ N1 H2 E2).
    rewrite fix_part_app. cbn [fixes_at]. rewrite IH, T1, F1. reflexivity.
  - destruct (nav_other _ _ _ _ N H1 D E) as (N1 & T1 & F1 & _ & M). specialize (IH _ _ _ N1 H2 E2). rewrite T1, F1 in IH.
    rewrite fix_part_app, IH. subst m1. destruct c as [|[x|]|[g|]| | | | | | ]; try reflexivity; [exfalso; eapply D; reflexivity|].
    cbn [fixes_at map]. unfold fix_msgs. rewrite fix_part_app. destruct (gnss_check g); reflexivity.
Qed.
Lemma about_run_fixes cs : forall y y' l, about y -> Forall quiet cs -> diary_run y cs = Some (y', l) ->
  fix_part l = map (fix_entry (d_opt (y_dev y)) (start_of (given_nav (d_given (y_dev y)) (d_opt (y_dev y))))) (fixes_at None cs).
Proof.
  induction cs as [|c cs IH]; intros y y' l N F H; simpl in H; [injection H as <- <-; auto|].
  destruct (diary_do y c) as [[y1 m1]|] eqn:E; [|discriminate]. destruct (diary_run y1 cs) as [[y2 m2]|] eqn:E2; [|discriminate].
  injection H as <- <-. inversion F; subst.
  assert (D : (exists x, c = ATime (Some x)) \/ (forall x, c <> ATime (Some x))).
  { destruct c as [| [x|] | | | | | | |]; try (right; congruence). left; eauto. }
  destruct D as [[x ->]|D].
  - destruct (about_sample _ _ _ _ N E) as (N1 & T1 & F1 & -> & _). rewrite fix_part_app. cbn [fixes_at].
    rewrite (nav_run_fixes _ _ _ _ N1 H2 E2), T1, F1. reflexivity.
  - destruct (about_other _ _ _ _ N H1 D E) as (N1 & -> & G1 & O1). specialize (IH _ _ _ N1 H2 E2). rewrite G1, O1 in IH. simpl. rewrite IH.
    destruct c as [|[x|]|[g|]| | | | | | ]; try reflexivity. exfalso; eapply D; reflexivity.
Qed.
Lemma given_start p o a : p_atti p = Some a -> start_of (given_nav p o) = Some (V (p_lat p * deg) (p_lon p * deg) (p_height p)).
Proof. intros H. unfold given_nav. rewrite H. reflexivity. Qed.
Lemma given_fixes y ao p a cs y' l : started y ao p -> p_atti p = Some a -> Forall quiet cs -> diary_run y cs = Some (y', l) ->
  fix_part l = map (fun tg => (fst tg, Some (displacement (place_fix (p_lat p) (p_lon p) (p_height p)) (snd tg)), (g_mode (snd tg) mod 256)%Z))
    (fixes_at None cs).
Proof.
  intros S A F H. destruct (started_about _ _ _ S) as (B & G & O). rewrite (about_run_fixes _ _ _ _ B F H), G, O, (given_start _ _ _ A).
  apply map_ext. intros [t g]. unfold fix_entry. cbn [fst snd bind vx vy vz].
  rewrite <- (step_displacement (place_fix (p_lat p) (p_lon p) (p_height p)) g). reflexivity.
Qed.
(** the times of the fixes do not matter *)
Fixpoint retimed (f : R -> R) (cs : list api_call) : list api_call :=
  match cs with
  | [] => []
  | AGnss (Some g) :: r => AGnss (Some (Gnss (g_lat g) (g_lon g) (g_height g) (g_std g) (f (g_gpst g)) (g_mode g))) :: retimed f r
  | c :: r => c :: retimed f r
  end.
Lemma diary_gnss_time y g t : navigating y \/ about y ->
  diary_gnss y (Gnss (g_lat g) (g_lon g) (g_height g) (g_std g) t (g_mode g)) = diary_gnss y g.
Proof. intros [N|[N _]]; unfold navigating in N; unfold diary_gnss, api_gnss; rewrite N; reflexivity. Qed.
Lemma follows y c y' m : navigating y \/ about y -> quiet c -> diary_do y c = Some (y', m) -> navigating y' \/ about y'.
Proof.
  intros H Q E.
  assert (D : (exists x, c = ATime (Some x)) \/ (forall x, c <> ATime (Some x))).
  { destruct c as [| [x|] | | | | | | |]; try (right; congruence). left; eauto. }
  destruct D as [[x ->]|D], H as [N|N].
  - left. exact (proj1 (nav_sample _ _ _ _ N E)).
  - left. exact (proj1 (about_sample _ _ _ _ N E)).
  - left. exact (proj1 (nav_other _ _ _ _ N Q D E)).
  - right. exact (proj1 (about_other _ _ _ _ N Q D E)).
Qed.
Lemma retimed_same f cs : forall y, navigating y \/ about y -> Forall quiet cs -> diary_run y (retimed f cs) = diary_run y cs.
Proof.
  induction cs as [|c cs IH]; intros y N F; [reflexivity|]. inversion F; subst.
  assert (K : forall c', diary_do y c' = diary_do y c ->
    match diary_do y c' with None => None | Some (y1, m) => match diary_run y1 (retimed f cs) with None => None | Some (y2, l) => Some (y2, m ++ l) end end =
    diary_run y (c :: cs)).
  { intros c' ->. cbn [diary_run]. destruct (diary_do y c) as [[y1 m]|] eqn:E; [|reflexivity].
    rewrite (IH y1 (follows _ _ _ _ N H1 E) H2). reflexivity. }
  destruct c as [j o n|[x|]|[g|]| | | | |p| ]; cbn [retimed diary_run]; apply K; try reflexivity.
  cbn [diary_do]. f_equal. apply diary_gnss_time, N.
Qed.
Lemma given_retimed f y ao p cs : started y ao p -> Forall quiet cs -> diary_run y (retimed f cs) = diary_run y cs.
Proof. intros S F. destruct (started_about _ _ _ S) as [A _]. apply retimed_same; auto. Qed.
(** the recorder stops no call *)
Lemma api_diary y c d a : api_do (y_dev y) c = Some (d, a) -> exists y' m, diary_do y c = Some (y', m) /\ y_dev y' = d.
Proof.
  destruct c as [j [ao|] n|[x|]|[g|]| | | | |p| ]; cbn [diary_do]; intros H;
    try (rewrite H; eauto; fail); try (do 2 eexists; split; [rewrite H; reflexivity|reflexivity]; fail).
  - unfold diary_time. cbn [api_do] in H. destruct (api_time _ _) as [[d' e]|]; [|discriminate]. injection H as <- _.
    destruct (d_status (y_dev y)); try (destruct (_ =? _)%Z); try (destruct (align_imu_msgs _ _ _)); try (destruct (d_status d'));
      do 2 eexists; (split; [reflexivity|reflexivity]).
  - cbn [api_do] in H. unfold diary_gnss. destruct (api_gnss (y_dev y) (Some g)) as [d' e]. injection H as <- _.
    destruct (d_status (y_dev y)); do 2 eexists; (split; [reflexivity|reflexivity]).
Qed.
Lemma api_run_diary cs : forall y d a, api_run (y_dev y) cs = Some (d, a) -> exists y' l, diary_run y cs = Some (y', l) /\ y_dev y' = d.
Proof.
  induction cs as [|c cs IH]; intros y d a H; simpl in H; [injection H as <- _; simpl; eauto|].
  destruct (api_do (y_dev y) c) as [[d1 a1]|] eqn:E; [|discriminate]. destruct (api_run d1 cs) as [[d2 a2]|] eqn:E2; [|discriminate].
  injection H as <- _. destruct (api_diary _ _ _ _ E) as (y1 & m & A & <-). destruct (IH _ _ _ E2) as (y2 & l & B & C).
  simpl. rewrite A, B. eauto.
Qed.
(** the recording of an alignment: the attitude in radians where a result reports degrees *)
Lemma align_record y g y' m p d q a : d_status (y_dev y) = RGIOE_STATUS_ATTITUDE -> vx (g_std (l_pre (d_align (y_dev y)))) <> 0 ->
  diary_do y (AGnss (Some g)) = Some (y', m) -> api_do (y_dev y') (AResult p) = Some (d, RPva (Some q)) -> p_atti q = Some a ->
  exists pos vn v s st yw lv, m = [MAlign (p_gpst q) (Some (pos, vn, Some (vscale deg a))) v s st yw lv].
Proof.
  intros S Z H Hr Ha. cbn [diary_do] in H. unfold diary_gnss, api_gnss in H. rewrite S in H. injection H as <- <-.
  cbn [api_do] in Hr. injection Hr as _ Hq. unfold api_result in Hq.
  cbn [fst y_dev d_status d_with_align d_align] in Hq. rewrite S in Hq. injection Hq as <-. cbn [p_atti p_gpst] in *.
  unfold align_fix_msgs. destruct (is_zero (vx (g_std (l_pre (d_align (y_dev y)))))) eqn:Ez.
  { unfold is_zero in Ez. destruct (Req_EM_T _ _); [contradiction|discriminate]. }
  cbv zeta. destruct (l_nav (align_gnss (d_align (y_dev y)) g)) as [n|]; [|discriminate]. cbn [bind] in Ha.
  destruct (euler_vec (n_atti n)) as [e|] eqn:Ee; [|discriminate]. cbn [bind] in Ha. injection Ha as <-.
  assert (Dg : deg <> 0) by (unfold deg; pose proof PI_RGT_0; lra).
  replace (vscale deg (vdiv e deg)) with e; [do 7 eexists; reflexivity|].
  destruct e as [e1 e2 e3]. unfold vscale, vdiv. cbn [vx vy vz]. f_equal; field; exact Dg.
Qed.
