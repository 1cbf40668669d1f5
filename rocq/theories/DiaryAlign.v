(** The recording of an alignment: the attitude-only filter, and the state navigation starts from. *)
From Coq Require Import Reals ZArith List Bool Lia Lra.
From Verif Require Import RealMath EarthModel ConvertModel ConvertSpec ConvertProofs SmoothModel SmoothSpec SmoothProofs SmoothProofs2 InsModel FusionBase KalmanModel FusionModel AlignModel AhrsModel ApiModel
  ApiSpec AlignProofs ApiProofs AlignExtra DiaryModel DiarySpec DiaryProofs.
Import ListNotations.
Local Open Scope R_scope.

Lemma atti_part_app a b : atti_part (a ++ b) = atti_part a ++ atti_part b.
Proof. induction a as [|[] a IH]; simpl; rewrite ?IH; reflexivity. Qed.

(** a device that is not levelled yet, its attitude-only filter being new *)
Definition unlevelled (r : R) (y : diary) : Prop :=
  l_level (d_align (y_dev y)) = false /\ y_ahrs y = Some (ahrs_new (1 / r)) /\
  (d_status (y_dev y) = RGIOE_STATUS_INIT /\ o_align_mode (d_opt (y_dev y)) <> ALIGN_USE_GIVEN /\ (exists v o, d_align (y_dev y) = align_new v o) \/
   d_status (y_dev y) = RGIOE_STATUS_ALIGN).
Lemma first_not_level v o x a : align_imu (align_new v o) x = Some a -> l_level a = false.
Proof.
  intros H. destruct (align_flags v o [AlImu x] a) as (_ & _ & _ & L & _); [cbn [align_run align_do bind]; rewrite H; reflexivity|].
  destruct (l_level a); [|reflexivity]. destruct (proj1 L eq_refl) as [k [N _]]. rewrite firstn_length in N. cbn [al_imus length] in N. lia.
Qed.
Lemma fix_keeps_level a g : l_level (align_gnss a g) = l_level a.
Proof. unfold align_gnss. destruct (is_zero _); reflexivity. Qed.
Lemma atti_fix a g : atti_part (align_fix_msgs a g) = [].
Proof. unfold align_fix_msgs. destruct (is_zero _); reflexivity. Qed.

Lemma unlevelled_other r y c y' m : unlevelled r y -> quiet c -> (forall x, c <> ATime (Some x)) -> diary_do y c = Some (y', m) ->
  unlevelled r y' /\ atti_part m = [] /\ d_status (y_dev y') = d_status (y_dev y).
Proof.
  intros (L & A & S) Qc Nx H. destruct c as [j o n|[x|]|[g|]| | | | |p| ]; try contradiction; try (destruct (Nx x eq_refl));
    try (cbn in H; injection H as <- <-; split; [split; [exact L|split; [exact A|exact S]]|split; reflexivity]).
  cbn [diary_do] in H. unfold diary_gnss, api_gnss in H. destruct S as [(S & Mo & Fr)|S]; rewrite S in H; injection H as <- <-.
  - split; [|split; [reflexivity|reflexivity]]. split; [exact L|]. split; [exact A|]. left. auto.
  - split; [|split; [apply atti_fix|cbn [y_dev fst d_status d_with_align]; reflexivity]]. unfold unlevelled. cbn [y_dev fst d_align d_with_align y_ahrs d_status].
    rewrite fix_keeps_level. auto.
Qed.
Lemma unlevelled_sample r y x y' m : unlevelled r y -> diary_do y (ATime (Some x)) = Some (y', m) -> atti_part m = [] /\
  ((unlevelled r y' /\ d_status (y_dev y') <> RGIOE_STATUS_ATTITUDE) \/
   d_status (y_dev y) = RGIOE_STATUS_ALIGN /\ d_status (y_dev y') = RGIOE_STATUS_ATTITUDE /\ l_level (d_align (y_dev y')) = true /\
   y_ahrs y' = bind (l_nav (d_align (y_dev y'))) (fun n => Some (ahrs_set_quat (ahrs_new (1 / r)) (n_Qbn n)))).
Proof.
  intros (L & A & S) H. cbn [diary_do] in H. unfold diary_time, api_time, align_imu_msgs in H. rewrite L in H.
  destruct S as [(S & Mo & v & o & Fr)|S]; rewrite S in H.
  - rewrite (proj2 (Z.eqb_neq _ _) Mo) in H. destruct (align_imu (d_align (y_dev y)) x) as [a|] eqn:E; [|discriminate].
    injection H as <- <-. split; [reflexivity|]. left. rewrite Fr in E. apply first_not_level in E. split; [|discriminate].
    unfold unlevelled, align_set. cbn [y_dev y_ahrs d_align d_with_align d_with_status d_status]. rewrite E, andb_false_r. auto.
  - destruct (align_imu (d_align (y_dev y)) x) as [a|] eqn:E; [|discriminate]. cbn [d_status d_with_status] in H.
    destruct (l_level a) eqn:La; injection H as <- <-; (split; [reflexivity|]).
    + right. unfold align_set. cbn [y_dev y_ahrs d_align d_with_align d_with_status d_status]. rewrite L, La, A. cbn [negb andb bind]. auto.
    + left. split; [|discriminate]. unfold unlevelled, align_set. cbn [y_dev y_ahrs d_align d_with_align d_with_status d_status]. rewrite La, andb_false_r. auto.
Qed.
Lemma started_unlevelled y ao : started_aligning y ao -> o_rate (ao_rest ao) <> 0 -> unlevelled (o_rate (ao_rest ao)) y.
Proof.
  intros (y0 & j & n & Mo & H) Hr. cbn [diary_do api_do] in H. rewrite (proj2 (is_zero_false _) Hr) in H. unfold api_init in H. destruct n as [p|].
  - inversion H; subst. unfold unlevelled. simpl. repeat split; auto. left. repeat split; auto. do 2 eexists; reflexivity.
  - destruct (Z.eqb_spec (o_align_mode (ao_rest ao)) ALIGN_USE_GIVEN); [contradiction|]. inversion H; subst.
    unfold unlevelled. simpl. repeat split; auto. left. repeat split; auto. do 2 eexists; reflexivity.
Qed.
Lemma levelled_call y c y' m h : d_status (y_dev y) = RGIOE_STATUS_ATTITUDE -> l_level (d_align (y_dev y)) = true -> y_ahrs y = Some h ->
  quiet c -> diary_do y c = Some (y', m) ->
  exists h', atti_part m = tracked h (imus [c]) /\ y_ahrs y' = Some h' /\ l_level (d_align (y_dev y')) = true /\ h' = fold_left ahrs_imu (imus [c]) h.
Proof.
  intros S L A Qc H. destruct c as [j o n|[x|]|[g|]| | | | |p| ]; try contradiction;
    try (cbn in H; injection H as <- <-; exists h; cbn; auto; fail).
  - cbn [diary_do] in H. unfold diary_time, api_time, align_imu_msgs in H. rewrite S, L, A in H. cbn [bind] in H.
    destruct (align_imu (d_align (y_dev y)) x) as [a|] eqn:E; [|discriminate].
    assert (La : l_level a = true).
    { unfold align_imu in E. destruct (smooth_update _ x); [|discriminate]. rewrite L in E. injection E as <-. reflexivity. }
    rewrite La in H. cbn [andb] in H. exists (ahrs_imu h x). cbn [imus tracked fold_left].
    assert (D : forall e, vdiv e deg = V (vx e * 180 / PI) (vy e * 180 / PI) (vz e * 180 / PI)).
    { intros e. assert (P := PI_RGT_0). unfold vdiv, deg. f_equal; field; lra. }
    destruct (l_yaw a); cbn [d_status d_with_status d_with_align] in H; rewrite ?S in H; injection H as <- <-;
      unfold align_set; cbn [y_ahrs y_dev d_align d_with_status d_with_fusion d_with_align]; rewrite ?La, L; cbn [negb andb atti_part].
    + destruct (euler_vec (ahrs_atti (ahrs_imu h x))) as [e|]; cbn [bind]; rewrite ?D; auto.
    + destruct (euler_vec (ahrs_atti (ahrs_imu h x))) as [e|]; cbn [bind]; rewrite ?D; auto.
  - cbn [diary_do] in H. unfold diary_gnss, api_gnss in H. rewrite S in H. injection H as <- <-. exists h. cbn [imus tracked fold_left].
    rewrite atti_fix. cbn [y_ahrs y_dev fst d_align d_with_align]. rewrite fix_keeps_level. auto.
Qed.
Lemma tracked_app h a b : tracked h (a ++ b) = tracked h a ++ tracked (fold_left ahrs_imu a h) b.
Proof. revert h. induction a as [|x a IH]; intros h; [reflexivity|]. cbn [app tracked fold_left]. rewrite IH. reflexivity. Qed.
Lemma imus_cons c cs : imus (c :: cs) = imus [c] ++ imus cs.
Proof. destruct c as [j o n|[x|]|[g|]| | | | |p| ]; reflexivity. Qed.
Lemma levelled_run cs : forall y y' l h, d_status (y_dev y) = RGIOE_STATUS_ATTITUDE -> l_level (d_align (y_dev y)) = true -> y_ahrs y = Some h ->
  Forall quiet cs -> diary_run y cs = Some (y', l) -> d_status (y_dev y') = RGIOE_STATUS_ATTITUDE ->
  atti_part l = tracked h (imus cs) /\ y_ahrs y' = Some (fold_left ahrs_imu (imus cs) h) /\ l_level (d_align (y_dev y')) = true.
Proof.
  induction cs as [|c cs IH]; intros y y' l h S L A F H T; [injection H as <- <-; auto|].
  inversion F; subst. cbn [diary_run] in H. destruct (diary_do y c) as [[y1 m1]|] eqn:E; [|discriminate].
  destruct (diary_run y1 cs) as [[y2 m2]|] eqn:E2; [|discriminate]. injection H as <- <-.
  destruct (levelled_call _ _ _ _ _ S L A H2 E) as (h' & M & A1 & L1 & Eh).
  destruct (diary_run_api _ _ _ _ E2) as [ll El]. destruct (run_status _ _ _ _ H3 El) as [Mono _].
  destruct (diary_api _ _ _ _ E) as [b Eb]. destruct (do_status _ _ _ _ H2 Eb) as [Mo1 _].
  assert (S1 : d_status (y_dev y1) = RGIOE_STATUS_ATTITUDE).
  { rewrite T in Mono. rewrite S in Mo1. destruct (d_status (y_dev y1)); cbn [rank] in *; try reflexivity; lia. }
  destruct (IH _ _ _ _ S1 L1 A1 H3 E2 T) as (X1 & X2 & X3).
  rewrite atti_part_app, M, X1, (imus_cons c cs), tracked_app, fold_left_app, <- Eh. auto.
Qed.
Lemma unlevelled_run r cs : forall y y' l, unlevelled r y -> Forall quiet cs -> diary_run y cs = Some (y', l) ->
  d_status (y_dev y') = RGIOE_STATUS_ALIGN \/ d_status (y_dev y') = RGIOE_STATUS_INIT -> unlevelled r y' /\ atti_part l = [].
Proof.
  induction cs as [|c cs IH]; intros y y' l U F H T; [injection H as <- <-; auto|].
  inversion F; subst. cbn [diary_run] in H. destruct (diary_do y c) as [[y1 m1]|] eqn:E; [|discriminate].
  destruct (diary_run y1 cs) as [[y2 m2]|] eqn:E2; [|discriminate]. injection H as <- <-.
  destruct (diary_run_api _ _ _ _ E2) as [ll El]. destruct (run_status _ _ _ _ H3 El) as [Mono _].
  assert (K : unlevelled r y1 /\ atti_part m1 = []).
  { destruct c as [j o n|[x|]|g| | | | |p| ]; try (match type of E with diary_do _ ?c = _ => assert (Nc : forall x, c <> ATime (Some x)) by (intros; discriminate) end; destruct (unlevelled_other r _ _ _ _ U H2 Nc E) as (X & Y & _); auto; fail).
    destruct (unlevelled_sample _ _ _ _ _ U E) as [M [[X _]|(_ & X & _)]]; [auto|].
    rewrite X in Mono. destruct T as [T|T]; rewrite T in Mono; cbn [rank] in Mono; lia. }
  destruct K as [K1 K2]. destruct (IH _ _ _ K1 H3 E2 T) as [X Y]. rewrite atti_part_app, K2, Y. auto.
Qed.

(** the whole: nothing up to levelling, then one record for each sample *)
Lemma filter_recorded y ao cs y1 l1 x y2 m p d q a cs2 y3 l3 c y4 m4 : started_aligning y ao -> o_rate (ao_rest ao) <> 0 ->
  Forall quiet (cs ++ cs2 ++ [c]) -> diary_run y cs = Some (y1, l1) -> d_status (y_dev y1) = RGIOE_STATUS_ALIGN ->
  diary_do y1 (ATime (Some x)) = Some (y2, m) -> d_status (y_dev y2) = RGIOE_STATUS_ATTITUDE ->
  api_do (y_dev y2) (AResult p) = Some (d, RPva (Some q)) -> p_atti q = Some a ->
  diary_run y2 cs2 = Some (y3, l3) -> d_status (y_dev y3) = RGIOE_STATUS_ATTITUDE -> diary_do y3 c = Some (y4, m4) ->
  atti_part (l1 ++ m) = [] /\
  atti_part (l3 ++ m4) = tracked (ahrs_set_quat (ahrs_new (1 / o_rate (ao_rest ao))) (euler_to_quaternion (V (vx a * PI / 180) (vy a * PI / 180) (vz a * PI / 180))))
    (imus (cs2 ++ [c])).
Proof.
  intros S Hr F H1 S1 H2 S2 Hq Ha H3 S3 H4. apply Forall_app in F. destruct F as [F1 F]. apply Forall_app in F. destruct F as [F2 F3]. inversion F3; subst.
  destruct (unlevelled_run _ _ _ _ _ (started_unlevelled _ _ S Hr) F1 H1 (or_introl S1)) as [U1 X1].
  destruct (unlevelled_sample _ _ _ _ _ U1 H2) as [M [[_ X]|(_ & _ & L2 & A2)]]; [contradiction|].
  rewrite atti_part_app, X1, M. split; [reflexivity|].
  cbn [api_do] in Hq. injection Hq as _ Hq. unfold api_result in Hq. rewrite S2 in Hq. injection Hq as <-. cbn [p_atti] in Ha.
  destruct (l_nav (d_align (y_dev y2))) as [n|] eqn:En; [|discriminate]. cbn [bind] in Ha, A2.
  assert (Qn : n_Qbn n = euler_to_quaternion (V (vx a * PI / 180) (vy a * PI / 180) (vz a * PI / 180))).
  { destruct (unlevelled_sample _ _ _ _ _ U1 H2) as [_ _]. destruct U1 as (L1 & _).
    cbn [diary_do] in H2. unfold diary_time, api_time in H2. rewrite S1 in H2.
    destruct (align_imu (d_align (y_dev y1)) x) as [b|] eqn:E; [|discriminate]. destruct (align_imu_msgs _ _ _).
    assert (Eb : d_align (y_dev y2) = b). { cbn [d_status d_with_status] in H2. destruct (l_level b); injection H2 as <- _; reflexivity. }
    rewrite Eb in *. unfold align_imu in E. destruct (smooth_update _ x) as [sm|]; [|discriminate]. rewrite L1 in E.
    destruct (is_static sm); injection E as <-; [|cbn [l_level] in L2; congruence]. cbn [l_nav] in En.
    destruct (is_zero _); [discriminate|]. destruct (l_nav (d_align (y_dev y1))) as [n1|]; [|discriminate]. injection En as <-.
    unfold nav_level in *. cbn [n_Qbn n_atti euler_vec eu_of] in *. set (vm := vnormalized _) in *.
    assert (D : deg <> 0) by (unfold deg; pose proof PI_RGT_0; lra). injection Ha as <-. f_equal. unfold vdiv. cbn [vx vy vz]. unfold deg in *. f_equal; field; pose proof PI_RGT_0; lra. }
  destruct (levelled_run _ _ _ _ _ S2 L2 A2 F2 H3 S3) as (X3 & A3 & L3).
  destruct (levelled_call _ _ _ _ _ S3 L3 A3 H5 H4) as (h' & X4 & _).
  rewrite atti_part_app, X3, X4, AlignExtra.imus_app, tracked_app, Qn. reflexivity.
Qed.

(** the state in the record of a fix is the one navigation starts from *)
Lemma start_recorded y g y1 t pos vn at_ v s st yw lv x y2 m2 : d_status (y_dev y) = RGIOE_STATUS_ATTITUDE -> o_project (d_opt (y_dev y)) = false ->
  diary_do y (AGnss (Some g)) = Some (y1, [MAlign t (Some (pos, vn, at_)) v s st yw lv]) -> diary_do y1 (ATime (Some x)) = Some (y2, m2) ->
  t = g_gpst g /\
  (yw = false -> lv = true -> d_status (y_dev y2) = RGIOE_STATUS_ATTITUDE) /\
  (yw = true -> lv = true -> d_status (y_dev y2) = RGIOE_STATUS_NAVIGATION) /\
  forall p d q, d_status (y_dev y2) = RGIOE_STATUS_NAVIGATION -> api_do (y_dev y2) (AResult p) = Some (d, RPva (Some q)) ->
  pos = V (p_lat q * PI / 180) (p_lon q * PI / 180) (p_height q) /\ vn = p_vn q.
Proof.
  intros S Pr H H2. cbn [diary_do] in H. unfold diary_gnss, api_gnss in H. rewrite S in H. cbn [fst] in H. injection H as <- Hm.
  unfold align_fix_msgs in Hm. destruct (is_zero (vx (g_std (l_pre (d_align (y_dev y)))))) eqn:Ez; [discriminate|]. cbv zeta in Hm.
  injection Hm as <- Hn <- <- <- <- <-. set (b := align_gnss (d_align (y_dev y)) g) in *.
  assert (Tb : l_gpst b = g_gpst g) by (unfold b, align_gnss; rewrite Ez; reflexivity).
  split; [exact Tb|]. assert (Lb : l_level b = l_level (d_align (y_dev y))) by apply fix_keeps_level.
  cbn [diary_do] in H2. unfold diary_time, api_time in H2. cbn [y_dev d_status d_with_align d_align d_opt d_fusion d_det] in H2. rewrite S in H2.
  destruct (align_imu b x) as [a|] eqn:Ea; [|discriminate].
  assert (Ya : l_yaw a = l_yaw b).
  { unfold align_imu in Ea. destruct (smooth_update _ x); [|discriminate]. destruct (l_level b); [injection Ea as <-; reflexivity|].
    destruct (is_static _); injection Ea as <-; reflexivity. }
  destruct (align_imu_msgs _ _ _) as [h ms].
  assert (La : l_level b = true -> l_level a = true).
  { intros K. unfold align_imu in Ea. destruct (smooth_update _ x); [|discriminate]. rewrite K in Ea. injection Ea as <-. reflexivity. }
  split; [|split].
  - intros Y L. specialize (La L). rewrite Ya, Y, La in H2. cbn [andb d_status d_with_align] in H2. rewrite S in H2. injection H2 as <- _. exact S.
  - intros Y L. specialize (La L). rewrite Ya, Y, La in H2. cbn [andb d_status d_with_align d_with_status] in H2. injection H2 as <- _. reflexivity.
  - intros p d q T Hq. destruct (l_nav b) as [n|] eqn:En; [|discriminate]. injection Hn as <- <- _.
    destruct (l_level a && l_yaw a).
    2: { cbn [d_status d_with_align] in H2. rewrite S in H2. injection H2 as <- _. cbn [y_dev d_status d_with_align] in T. congruence. }
    cbn [d_status d_with_status] in H2. injection H2 as <- _. cbn [api_do y_dev] in Hq. injection Hq as _ Hq.
    unfold api_result, df_output, df_init in Hq. cbn [d_status d_with_status d_fusion d_with_fusion d_with_align d_opt] in Hq.
    destruct (d_fusion (y_dev y)) as [f|]; [|discriminate]. cbn [bind] in Hq.
    assert (Na : exists na, l_nav a = Some na /\ n_pos na = n_pos n /\ n_vn na = n_vn n \/ l_nav a = None).
    { unfold align_imu in Ea. destruct (smooth_update _ x); [|discriminate]. rewrite En in Ea. destruct (l_level b).
      - injection Ea as <-. eexists. left. split; [reflexivity|split; reflexivity].
      - destruct (is_static _); injection Ea as <-; cbn [l_nav].
        + destruct (is_zero (o_rate (l_opt b))); [exists n; right; reflexivity|]. eexists. left. split; [reflexivity|split; reflexivity].
        + eexists. left. split; [reflexivity|split; reflexivity]. }
    destruct Na as [na [(Ena & P1 & V1)|Ena]]; rewrite Ena in Hq; [|discriminate]. cbn [bind] in Hq.
    destruct (initialize f na (d_opt (y_dev y))) as [f2|] eqn:Ei; [|discriminate]. cbn [bind] in Hq.
    unfold initialize in Ei. destruct (_ || _); [discriminate|]. injection Ei as <-.
    unfold output, out_place in Hq. cbn [f_opt] in Hq. rewrite Pr in Hq. injection Hq as <-.
    cbn [p_lat p_lon p_height p_vn f_ins s_nav ins_nav init_pva nav_kd n_pos n_vn]. rewrite P1, V1.
    split; [|reflexivity]. destruct (n_pos n) as [a1 a2 a3]. cbn [vx vy vz]. assert (P := PI_RGT_0). f_equal; unfold deg; field; lra.
Qed.

(** every run that ends levelled has the call that levelled *)
Lemma level_split r cs : forall y y' l, unlevelled r y -> Forall quiet cs -> diary_run y cs = Some (y', l) -> d_status (y_dev y') = RGIOE_STATUS_ATTITUDE ->
  exists cs1 x cs2 y1 l1 y2 m l3, cs = cs1 ++ ATime (Some x) :: cs2 /\ diary_run y cs1 = Some (y1, l1) /\ d_status (y_dev y1) = RGIOE_STATUS_ALIGN /\
    unlevelled r y1 /\ diary_do y1 (ATime (Some x)) = Some (y2, m) /\ d_status (y_dev y2) = RGIOE_STATUS_ATTITUDE /\ diary_run y2 cs2 = Some (y', l3).
Proof.
  induction cs as [|c cs IH]; intros y y' l U F H T.
  { injection H as <- <-. destruct U as (_ & _ & [(S & _)|S]); congruence. }
  inversion F; subst. cbn [diary_run] in H. destruct (diary_do y c) as [[y1 m1]|] eqn:E; [|discriminate].
  destruct (diary_run y1 cs) as [[y2 m2]|] eqn:E2; [|discriminate]. injection H as <- <-.
  assert (K : unlevelled r y1 \/ exists x, c = ATime (Some x) /\ d_status (y_dev y) = RGIOE_STATUS_ALIGN /\ d_status (y_dev y1) = RGIOE_STATUS_ATTITUDE).
  { destruct c as [j o n|[x|]|g| | | | |p| ];
      try (match type of E with diary_do _ ?c = _ => assert (Nc : forall x, c <> ATime (Some x)) by (intros; discriminate) end; destruct (unlevelled_other r _ _ _ _ U H2 Nc E) as (X & Y & _); auto; fail).
    destruct (unlevelled_sample _ _ _ _ _ U E) as [M [[X _]|(X1 & X & _)]]; [auto|]. right. eauto. }
  destruct K as [K|(x & -> & S & S1)].
  - destruct (IH _ _ _ K H3 E2 T) as (cs1 & x & cs2 & y3 & l1 & y4 & m & l3 & -> & A & B & U3 & C & D & G).
    exists (c :: cs1), x, cs2, y3, (m1 ++ l1), y4, m, l3. split; [reflexivity|]. split; [cbn [diary_run]; rewrite E, A; reflexivity|]. auto.
  - exists [], x, cs, y, [], y1, m1, m2. repeat split; auto; apply U.
Qed.
(** a state lost is not found again *)
Lemma nav_lost y c y' m : d_status (y_dev y) = RGIOE_STATUS_ATTITUDE -> quiet c -> diary_do y c = Some (y', m) ->
  l_nav (d_align (y_dev y)) = None -> l_nav (d_align (y_dev y')) = None.
Proof.
  intros S Qc H N. destruct c as [j o n|[x|]|[g|]| | | | |p| ]; try contradiction; try (cbn in H; injection H as <- <-; exact N).
  - cbn [diary_do] in H. unfold diary_time, api_time in H. rewrite S in H. destruct (align_imu (d_align (y_dev y)) x) as [a|] eqn:E; [|discriminate].
    destruct (align_imu_msgs _ _ _).
    assert (Na : l_nav a = None).
    { unfold align_imu in E. destruct (smooth_update _ x); [|discriminate]. rewrite N in E. destruct (l_level _); [injection E as <-; reflexivity|].
      destruct (is_static _); injection E as <-; cbn [l_nav]; [destruct (is_zero _)|]; reflexivity. }
    destruct (l_level a && l_yaw a); cbn [d_status d_with_status d_with_align] in H; rewrite ?S in H; injection H as <- _; exact Na.
  - cbn [diary_do] in H. unfold diary_gnss, api_gnss in H. rewrite S in H. injection H as <- _. cbn [y_dev fst d_align d_with_align].
    unfold align_gnss. rewrite N. destruct (is_zero _); [reflexivity|]. cbn [l_nav]. destruct (align_moving _ _ _); reflexivity.
Qed.
Lemma nav_lost_run cs : forall y y' l, d_status (y_dev y) = RGIOE_STATUS_ATTITUDE -> Forall quiet cs -> diary_run y cs = Some (y', l) ->
  d_status (y_dev y') = RGIOE_STATUS_ATTITUDE -> l_nav (d_align (y_dev y)) = None -> l_nav (d_align (y_dev y')) = None.
Proof.
  induction cs as [|c cs IH]; intros y y' l S F H T N; [injection H as <- <-; auto|].
  inversion F; subst. cbn [diary_run] in H. destruct (diary_do y c) as [[y1 m1]|] eqn:E; [|discriminate].
  destruct (diary_run y1 cs) as [[y2 m2]|] eqn:E2; [|discriminate]. injection H as <- <-.
  destruct (diary_run_api _ _ _ _ E2) as [ll El]. destruct (run_status _ _ _ _ H3 El) as [Mono _].
  destruct (diary_api _ _ _ _ E) as [b Eb]. destruct (do_status _ _ _ _ H2 Eb) as [Mo1 _].
  assert (S1 : d_status (y_dev y1) = RGIOE_STATUS_ATTITUDE).
  { rewrite T in Mono. rewrite S in Mo1. destruct (d_status (y_dev y1)); cbn [rank] in *; try reflexivity; lia. }
  exact (IH _ _ _ S1 H3 E2 T (nav_lost _ _ _ _ S H2 E N)).
Qed.
(** the call that levels leaves a finite attitude *)
Lemma level_result r y x y' m n p : unlevelled r y -> d_status (y_dev y) = RGIOE_STATUS_ALIGN -> diary_do y (ATime (Some x)) = Some (y', m) ->
  d_status (y_dev y') = RGIOE_STATUS_ATTITUDE -> l_nav (d_align (y_dev y')) = Some n ->
  exists q a, api_do (y_dev y') (AResult p) = Some (y_dev y', RPva (Some q)) /\ p_atti q = Some a.
Proof.
  intros U S H T N. destruct (unlevelled_sample _ _ _ _ _ U H) as [_ [[_ X]|(_ & _ & L2 & _)]]; [contradiction|]. destruct U as (L1 & _).
  cbn [diary_do] in H. unfold diary_time, api_time in H. rewrite S in H.
  destruct (align_imu (d_align (y_dev y)) x) as [b|] eqn:E; [|discriminate]. destruct (align_imu_msgs _ _ _).
  assert (Eb : d_align (y_dev y') = b). { cbn [d_status d_with_status] in H. destruct (l_level b); injection H as <- _; reflexivity. }
  rewrite Eb in *. unfold align_imu in E. destruct (smooth_update _ x) as [sm|]; [|discriminate]. rewrite L1 in E.
  destruct (is_static sm); injection E as <-; [|cbn [l_level] in L2; congruence]. cbn [l_nav] in N.
  destruct (is_zero _) eqn:Z; [discriminate|]. destruct (l_nav (d_align (y_dev y))) as [n1|] eqn:N1; [|discriminate]. injection N as <-.
  cbn [api_do]. unfold api_result. rewrite T, Eb. cbn [l_nav]. cbn [bind nav_level n_atti euler_vec eu_of].
  do 2 eexists. split; reflexivity.
Qed.

(** the numbers and flags in the record of a fix *)
Lemma fix_record y ao cs y1 l1 g y2 t nav v s st yw lv : started_aligning y ao -> Forall quiet cs -> diary_run y cs = Some (y1, l1) ->
  d_status (y_dev y1) <> RGIOE_STATUS_NAVIGATION -> diary_do y1 (AGnss (Some g)) = Some (y2, [MAlign t nav v s st yw lv]) ->
  (exists r p, late_fixes cs = r ++ [p] /\ v = travelled p g) /\ s = spread 30 (imus cs) /\ (st = true <-> static_now (imus cs)) /\
  (lv = true <-> found_static (imus cs)) /\ (yw = true <-> found_moving (o_align_vel (ao_rest ao)) (late_fixes (cs ++ [AGnss (Some g)]))).
Proof.
  intros S F H N H2.
  destruct (diary_run_api _ _ _ _ H) as [la Ha]. destruct (diary_api _ _ _ _ H2) as [a2 Ha2].
  assert (I : exists v0, d_status (y_dev y) = RGIOE_STATUS_INIT /\ o_align_mode (d_opt (y_dev y)) <> ALIGN_USE_GIVEN /\
    d_align (y_dev y) = align_new v0 (ao_rest ao)).
  { destruct S as (y0 & j & n & Mo & Hi). cbn [diary_do api_do] in Hi. unfold api_init in Hi. destruct n as [p|].
    - inversion Hi; subst. simpl. eexists. split; [reflexivity|split; [exact Mo|reflexivity]].
    - destruct (Z.eqb_spec (o_align_mode (ao_rest ao)) ALIGN_USE_GIVEN); [contradiction|]. inversion Hi; subst. simpl. eexists. split; [reflexivity|split; [exact Mo|reflexivity]]. }
  destruct I as (v0 & S0 & Mo & A0).
  assert (F2 : Forall quiet (cs ++ [AGnss (Some g)])) by (apply Forall_app; split; [exact F|repeat constructor]).
  assert (Hb : exists lb, api_run (y_dev y) (cs ++ [AGnss (Some g)]) = Some (y_dev y2, lb)).
  { rewrite api_run_app, Ha. cbn [api_run]. rewrite Ha2. eauto. }
  destruct Hb as [lb Hb].
  assert (N2 : d_status (y_dev y2) <> RGIOE_STATUS_NAVIGATION).
  { cbn [api_do] in Ha2. destruct (api_gnss (y_dev y1) (Some g)) as [dd ee] eqn:Eg. injection Ha2 as <- _.
    assert (X := gnss_status (y_dev y1) (Some g)). rewrite Eg in X. cbn [fst] in X. rewrite X. exact N. }
  destruct (align_track0 _ _ _ _ F S0 Mo Ha N) as (_ & T1 & _). rewrite A0 in T1.
  destruct (align_track0 _ _ _ _ F2 S0 Mo Hb N2) as (_ & T2 & _). rewrite A0 in T2.
  destruct (align_flags _ _ _ _ T1) as (_ & Sm & Pr & _). rewrite acalls0_imus in Sm. rewrite acalls0_fixes in Pr.
  destruct (align_flags _ _ _ _ T2) as (_ & Sm2 & _ & Lv & Yw). rewrite acalls0_imus, AlignExtra.imus_app in Sm2, Lv. rewrite acalls0_fixes in Yw. cbn [imus] in Sm2, Lv. rewrite app_nil_r in Sm2, Lv.
  assert (Al2 : d_align (y_dev y2) = align_gnss (d_align (y_dev y1)) g /\ [MAlign t nav v s st yw lv] = align_fix_msgs (d_align (y_dev y1)) g).
  { cbn [diary_do] in H2. unfold diary_gnss, api_gnss in H2. destruct (d_status (y_dev y1)); cbn [fst] in H2; try discriminate; try contradiction;
      injection H2 as <- Hm; auto. }
  destruct Al2 as [Al2 Hm]. unfold align_fix_msgs in Hm. destruct (is_zero (vx (g_std (l_pre (d_align (y_dev y1)))))) eqn:Ez; [discriminate|].
  cbv zeta in Hm. rewrite <- Al2 in Hm. injection Hm as -> -> -> -> -> -> ->.
  split; [|split; [|split; [|split; assumption]]].
  - apply is_zero_false in Ez. destruct (late_fixes cs) as [|p r _] eqn:El using rev_ind.
    + rewrite Pr in Ez. cbn in Ez. contradiction.
    + exists r, p. split; [reflexivity|]. rewrite Pr. unfold last_fix. rewrite last_last. apply step_length.
  - apply (spread_read_out (1 / 1000) 200 30); [lia|exact Sm2].
  - apply static_spread in Sm2; [exact Sm2|lia|lia].
Qed.
