(** The odometer options of the C interface (C85). *)
From Coq Require Import Reals ZArith List Bool.
From Verif Require Import RealMath EarthModel ConvertModel SmoothModel InsModel InsProofs FusionBase KalmanModel FusionModel AlignModel ApiModel OdoSpec PostTime ApiSpec.
Import ListNotations.
Local Open Scope R_scope.

Definition omap {A B} (f : A -> B) (o : option A) : option B := match o with Some a => Some (f a) | None => None end.
(** without scale factor *)
Definition bn (n : navepoch) : navepoch := nav_kd n 0.
Definition bi (i : ins) : ins := ins_nav i (bn (s_nav i)).
Definition bf (s : fusion) : fusion :=
  Fu (bi (f_ins s)) (f_kf s) (f_Q0 s) (no_odometer (f_opt s)) (f_flag s) (f_Xd s) (f_iter s) (f_idx s) (f_smooth s) (f_cnt s) (f_min s)
     (f_pheight s) (f_gheight s) (f_base s).
Definition ba (a : align) : align :=
  Al (omap bn (l_nav a)) (l_gpst a) (l_level a) (l_yaw a) (l_smooth a) (l_pre a) (no_odometer (l_opt a)) (l_vpre a).
Definition bp (p : pva) : pva :=
  Pva (p_week p) (p_gpst p) (p_lat p) (p_lon p) (p_height p) (p_pos_std p) (p_vn p) (p_vn_std p) (p_atti p)
      (p_atti_std p) (p_sensors p) (p_gnss_mode p) (p_gb p) (p_ab p) (p_gs p) (p_as p) 0.
Definition bd (d : device) : device :=
  Dev (d_status d) (no_odometer (d_opt d)) (d_given d) (ba (d_align d)) (omap bf (d_fusion d)) (d_det d).

Lemma bind_omap {A B C} (f : A -> B) (o : option A) (g : B -> option C) : bind (omap f o) g = bind o (fun a => g (f a)).
Proof. destruct o; reflexivity. Qed.
Lemma omap_bind {A B C} (f : B -> C) (o : option A) (g : A -> option B) : omap f (bind o g) = bind o (fun a => omap f (g a)).
Proof. destruct o; reflexivity. Qed.
Lemma bind_ext {A B} (o : option A) (f g : A -> option B) : (forall a, f a = g a) -> bind o f = bind o g.
Proof. intros H. destruct o; simpl; auto. Qed.


(** both sides bind the same thing *)
Ltac both := cbv zeta; rewrite ?omap_bind; repeat (apply bind_ext; let a := fresh in intros a; cbv zeta; rewrite ?omap_bind); try reflexivity.
Lemma extrapolate_b i : extrapolate (bi i) = omap bi (extrapolate i).
Proof. unfold extrapolate. both. Qed.
Lemma velocity_b i a g : velocity_update (bi i) a g = omap bi (velocity_update i a g).
Proof. unfold velocity_update. change (s_dt (bi i)) with (s_dt i). destruct (Req_EM_T (s_dt i) 0); [reflexivity|]. both. Qed.
Lemma position_b i : position_update (bi i) = omap bi (position_update i).
Proof. unfold position_update. both. Qed.
Lemma mechanise_b i a g : mechanise (bi i) a g = omap bi (mechanise i a g).
Proof.
  unfold mechanise. rewrite extrapolate_b, bind_omap, omap_bind. apply bind_ext; intros b. rewrite velocity_b, bind_omap, omap_bind.
  apply bind_ext; intros c. rewrite position_b, bind_omap, omap_bind. apply bind_ext; intros e. reflexivity.
Qed.
Lemma forward_b i x : forward (bi i) x = omap bi (forward i x).
Proof. unfold forward. cbv zeta. rewrite mechanise_b, bind_omap, omap_bind. apply bind_ext; intros b. reflexivity. Qed.
Lemma feedback_b i x : feedback (bi i) x = omap bi (feedback i x).
Proof.
  unfold feedback. change (n_pos (s_nav (bi i))) with (n_pos (s_nav i)). destruct (rates_defined (n_pos (s_nav i))); [|reflexivity]. both.
Qed.
Lemma take_b s : take_estimate (bf s) = bf (take_estimate s).
Proof. unfold take_estimate. change (f_flag (bf s)) with (f_flag s). destruct (Z.ltb 0 (f_flag s)); reflexivity. Qed.
Lemma feed_b s : feed (bf s) = omap bf (feed s).
Proof.
  unfold feed. change (f_iter (bf s)) with (f_iter s). destruct (Z.ltb 0 (f_iter s)); [|reflexivity].
  change (f_ins (bf s)) with (bi (f_ins s)). rewrite feedback_b, bind_omap, omap_bind. apply bind_ext; intros i. reflexivity.
Qed.
Lemma propagate_b s x : propagate (bf s) x = omap bf (propagate s x).
Proof.
  unfold propagate. rewrite omap_bind. apply bind_ext; intros sm. change (f_ins (bf s)) with (bi (f_ins s)).
  rewrite forward_b, bind_omap, omap_bind. apply bind_ext; intros i. rewrite omap_bind.
  change (transfer (bi i) (f_opt (bf s))) with (transfer i (f_opt s)). apply bind_ext; intros phi. reflexivity.
Qed.
Lemma zero_b s : zero_velocity (bf s) = omap bf (zero_velocity s).
Proof.
  unfold zero_velocity. cbv zeta. rewrite omap_bind. apply bind_ext; intros k.
  change (o_zupta (f_opt (bf s))) with (o_zupta (f_opt s)). destruct (o_zupta (f_opt s)); [|reflexivity].
  change (s_dt (f_ins (bf s))) with (s_dt (f_ins s)). destruct (is_zero (s_dt (f_ins s))); [reflexivity|].
  rewrite omap_bind. apply bind_ext; intros k2. reflexivity.
Qed.
Lemma zupt_b s : zupt_step (bf s) = omap bf (zupt_step s).
Proof.
  unfold zupt_step. change (f_idx (bf s)) with (f_idx s). change (o_zupt (f_opt (bf s))) with (o_zupt (f_opt s)).
  destruct (negb (Z.eqb (Z.modulo (f_idx s) 8) 0) && o_zupt (f_opt s)); [|reflexivity].
  change (f_smooth (bf s)) with (f_smooth s). destruct (is_static (f_smooth s)); [|reflexivity].
  rewrite zero_b, bind_omap, omap_bind. apply bind_ext; intros t. reflexivity.
Qed.
Lemma measure_nhc_b s : measure_nhc (bf s) = omap bf (measure_nhc s).
Proof. unfold measure_nhc. both. Qed.
Lemma nhc_b s : nhc_step (bf s) = omap bf (nhc_step s).
Proof.
  unfold nhc_step. change (f_idx (bf s)) with (f_idx s).
  change (o_nhc (f_opt (bf s))) with (o_nhc (f_opt s) && negb (o_odo (f_opt s))). change (o_odo (f_opt (bf s))) with false.
  destruct (Z.eqb (Z.modulo (f_idx s) 32) 1); [|reflexivity]. destruct (o_nhc (f_opt s)); [|reflexivity]. destruct (o_odo (f_opt s)); [reflexivity|].
  cbn [negb andb]. rewrite measure_nhc_b, bind_omap, omap_bind. apply bind_ext; intros t. reflexivity.
Qed.
Lemma time_b s x : time_update (bf s) x = omap bf (time_update s x).
Proof.
  unfold time_update. rewrite take_b, feed_b, bind_omap, omap_bind. apply bind_ext; intros a.
  rewrite propagate_b, bind_omap, omap_bind. apply bind_ext; intros b. rewrite zupt_b, bind_omap, omap_bind. apply bind_ext; intros c.
  rewrite nhc_b, bind_omap, omap_bind. apply bind_ext; intros e. reflexivity.
Qed.
Lemma measure_pos_b s p r : measure_pos (bf s) p r = omap bf (measure_pos s p r).
Proof. unfold measure_pos. both. Qed.
Lemma gnss_b s g : gnss_update (bf s) g = omap bf (gnss_update s g).
Proof.
  unfold gnss_update. destruct (gnss_check g); [|reflexivity]. cbv zeta. set (s1 := set_ins s _).
  change (set_ins (bf s) _) with (bf s1). rewrite measure_pos_b, bind_omap, omap_bind. apply bind_ext; intros t. reflexivity.
Qed.
Lemma initialize_b s n o : initialize (bf s) (bn n) (no_odometer o) = omap bf (initialize s n o).
Proof.
  unfold initialize. change (o_rate (no_odometer o)) with (o_rate o). change (o_gt_corr (no_odometer o)) with (o_gt_corr o).
  change (o_at_corr (no_odometer o)) with (o_at_corr o).
  destruct (is_zero (o_rate o) || is_zero (o_gt_corr o) || is_zero (o_at_corr o)); reflexivity.
Qed.
Lemma output_b s : output (bf s) = omap bp (output s).
Proof.
  unfold output. change (out_place (bf s)) with (out_place s). destruct (out_place s) as [p|]; reflexivity.
Qed.
(** the alignment *)
Lemma align_imu_b a x : align_imu (ba a) x = omap ba (align_imu a x).
Proof.
  unfold align_imu. change (l_smooth (ba a)) with (l_smooth a). destruct (smooth_update (l_smooth a) x) as [sm|]; [|reflexivity].
  cbv zeta. change (l_level (ba a)) with (l_level a). destruct (l_level a).
  - unfold ba. cbn. destruct (l_nav a); reflexivity.
  - destruct (is_static sm).
    + change (o_rate (l_opt (ba a))) with (o_rate (l_opt a)). destruct (is_zero (o_rate (l_opt a))); [reflexivity|].
      unfold ba. cbn [l_nav omap]. destruct (l_nav a); reflexivity.
    + unfold ba. cbn. destruct (l_nav a); reflexivity.
Qed.
Lemma heading_b n v p g : align_heading (bn n) v p g = omap bn (align_heading n v p g).
Proof.
  unfold align_heading. destruct (is_zero _); [reflexivity|]. change (n_atti (bn n)) with (n_atti n).
  destruct (euler_vec (n_atti n)); reflexivity.
Qed.
Lemma finish_b o n p g : align_finish (no_odometer o) (bn n) p g = omap bn (align_finish o n p g).
Proof.
  unfold align_finish. destruct (negb _); [reflexivity|]. destruct (_ || _)%bool; [reflexivity|].
  change (n_Cbn (bn n)) with (n_Cbn n). change (align_Cbv (no_odometer o)) with (align_Cbv o).
  destruct (euler_vec (dcm_to_euler (mmul (n_Cbn n) (align_Cbv o)))); reflexivity.
Qed.
Lemma align_gnss_b a g : align_gnss (ba a) g = ba (align_gnss a g).
Proof.
  unfold align_gnss. cbv zeta. change (l_pre (ba a)) with (l_pre a). destruct (is_zero (vx (g_std (l_pre a)))); [reflexivity|].
  change (align_moving (l_opt (ba a)) (l_pre a) g) with (align_moving (l_opt a) (l_pre a) g).
  destruct (align_moving (l_opt a) (l_pre a) g); unfold ba; cbn [l_nav l_opt l_gpst l_level l_yaw l_smooth l_pre l_vpre].
  - rewrite bind_omap. destruct (l_nav a) as [n|]; cbn [bind omap]; [|reflexivity].
    rewrite heading_b. destruct (align_heading n _ _ _) as [m|]; cbn [bind omap]; [|reflexivity]. rewrite finish_b. reflexivity.
  - destruct (l_nav a) as [n|]; cbn [bind omap]; [|reflexivity]. rewrite finish_b. reflexivity.
Qed.
(** the interface *)
Lemma df_time_b f det x : df_time (omap bf f) det x = omap (fun r => (omap bf (fst r), snd r)) (df_time f det x).
Proof.
  unfold df_time. destruct (smooth_update det x) as [sm|]; [|reflexivity]. cbn [omap fst snd]. rewrite bind_omap, omap_bind.
  do 2 f_equal. apply bind_ext; intros s. apply time_b.
Qed.
Lemma df_init_b f n o : df_init (omap bf f) (omap bn n) (no_odometer o) = omap bf (df_init f n o).
Proof.
  unfold df_init. rewrite bind_omap, omap_bind. apply bind_ext; intros s. rewrite bind_omap, omap_bind. apply bind_ext; intros m.
  apply initialize_b.
Qed.
Lemma given_b p o : given_nav p (no_odometer o) = omap bn (given_nav p o).
Proof. unfold given_nav. destruct (p_atti p); reflexivity. Qed.
Definition both_d {E} (r : device * E) : device * E := (bd (fst r), snd r).
Lemma api_time_b d x : api_time (bd d) x = omap both_d (api_time d x).
Proof.
  destruct x as [x|]; [|reflexivity]. destruct d as [st o gv al fu dt]. unfold api_time, bd. cbn [d_status d_opt d_given d_align d_fusion d_det].
  destruct st; try reflexivity.
  - change (o_align_mode (no_odometer o)) with (o_align_mode o). destruct (Z.eqb (o_align_mode o) ALIGN_USE_GIVEN).
    + cbv zeta. rewrite given_b, df_init_b, df_time_b. destruct (df_time _ dt x) as [[f sm]|]; reflexivity.
    + rewrite align_imu_b. destruct (align_imu al x); reflexivity.
  - rewrite align_imu_b. destruct (align_imu al x) as [a|]; reflexivity.
  - rewrite align_imu_b. destruct (align_imu al x) as [a|]; [|reflexivity]. cbn [omap].
    change (l_level (ba a)) with (l_level a). change (l_yaw (ba a)) with (l_yaw a). destruct (l_level a && l_yaw a); [|reflexivity].
    change (l_nav (ba a)) with (omap bn (l_nav a)). cbn [d_with_align d_with_fusion d_with_status]. unfold d_with_status, d_with_fusion, d_with_align.
    cbn [d_status d_opt d_given d_align d_fusion d_det]. rewrite df_init_b. reflexivity.
  - rewrite df_time_b. destruct (df_time fu dt x) as [[f sm]|]; reflexivity.
Qed.
Lemma api_gnss_b d g : api_gnss (bd d) g = both_d (api_gnss d g).
Proof.
  destruct g as [g|]; [|reflexivity]. destruct d as [st o gv al fu dt]. unfold api_gnss, bd. cbn [d_status d_opt d_given d_align d_fusion d_det].
  destruct st; try reflexivity; unfold both_d, d_with_align, d_with_fusion; cbn [d_status d_opt d_given d_align d_fusion d_det fst snd].
  - rewrite align_gnss_b. reflexivity.
  - rewrite align_gnss_b. reflexivity.
  - unfold bd. cbn [d_status d_opt d_given d_align d_fusion d_det]. rewrite bind_omap, omap_bind. do 2 f_equal. apply bind_ext; intros s. apply gnss_b.
Qed.
Lemma out_b d : df_output (bd d) = omap bp (df_output d).
Proof.
  unfold df_output. change (d_fusion (bd d)) with (omap bf (d_fusion d)). rewrite bind_omap, omap_bind. apply bind_ext; intros s. apply output_b.
Qed.

Lemma some_inj {A} (a b : A) : Some a = Some b -> a = b.
Proof. intros H. exact (f_equal (fun o => match o with Some x => x | None => a end) H). Qed.
Lemma bn_idem n : bn (bn n) = bn n. Proof. reflexivity. Qed.
Lemma strip_idem o : no_odometer (no_odometer o) = no_odometer o.
Proof. unfold no_odometer. cbn. rewrite andb_true_r. reflexivity. Qed.
Definition rel (d1 d2 : device) : Prop := bd d1 = bd d2.
Definition rel_r {E} (r1 r2 : option (device * E)) : Prop :=
  match r1, r2 with Some (d1, e1), Some (d2, e2) => rel d1 d2 /\ e1 = e2 | None, None => True | _, _ => False end.
Lemma rel_r_of {E} (r1 r2 : option (device * E)) : omap both_d r1 = omap both_d r2 -> rel_r r1 r2.
Proof.
  destruct r1 as [[d1 e1]|], r2 as [[d2 e2]|]; intros H; try discriminate; try exact I.
  assert (K : both_d (d1, e1) = both_d (d2, e2)) by exact (some_inj _ _ H).
  split; [exact (f_equal fst K)|exact (f_equal snd K)].
Qed.
Lemma api_time_r d1 d2 x : rel d1 d2 -> rel_r (api_time d1 x) (api_time d2 x).
Proof. intros H. apply rel_r_of. rewrite <- !api_time_b. rewrite H. reflexivity. Qed.
Lemma api_gnss_r d1 d2 g : rel d1 d2 -> rel_r (Some (api_gnss d1 g)) (Some (api_gnss d2 g)).
Proof. intros H. apply rel_r_of. cbn [omap]. rewrite <- !api_gnss_b. rewrite H. reflexivity. Qed.
Lemma out_r d1 d2 : rel d1 d2 -> omap bp (df_output d1) = omap bp (df_output d2).
Proof. intros H. rewrite <- !out_b. rewrite H. reflexivity. Qed.
Lemma bp_same p q : bp p = bp q -> same_pva p q.
Proof. unfold bp. intros H. injection H. intros. unfold same_pva. repeat split; assumption. Qed.
Lemma same_refl a : same_answer a a.
Proof. destruct a as [| | |[p|]]; try reflexivity. cbn. unfold same_pva. repeat split. Qed.
Lemma out_field {A} (h : pva -> option A) d1 d2 : (forall p, h p = h (bp p)) -> rel d1 d2 -> bind (df_output d1) h = bind (df_output d2) h.
Proof.
  intros Hh H. apply out_r in H. destruct (df_output d1) as [p|], (df_output d2) as [q|]; cbn [omap bind] in *; try discriminate; auto.
  rewrite (Hh p), (Hh q). rewrite (some_inj _ _ H). reflexivity.
Qed.
Lemma result_r d1 d2 p : rel d1 d2 -> omap bp (api_result d1 p) = omap bp (api_result d2 p).
Proof.
  intros H. pose proof (out_r _ _ H) as O. pose proof (f_equal d_status H) as S. pose proof (f_equal d_align H) as A. cbn in S, A.
  assert (G : l_gpst (d_align d1) = l_gpst (d_align d2)) by exact (f_equal l_gpst A).
  assert (N : omap bn (l_nav (d_align d1)) = omap bn (l_nav (d_align d2))) by exact (f_equal l_nav A).
  unfold api_result. rewrite S. destruct (d_status d2); auto; rewrite G; auto.
  destruct (l_nav (d_align d1)) as [n|], (l_nav (d_align d2)) as [m|]; cbn [omap] in N; try discriminate; auto.
  assert (N' : bn n = bn m) by exact (some_inj _ _ N). cbn [bind].
  change (n_atti n) with (n_atti (bn n)). change (n_att_std n) with (n_att_std (bn n)). rewrite N'. reflexivity.
Qed.
Lemma init_r d1 d2 j o1 o2 n : rel d1 d2 -> no_odometer (ao_rest o1) = no_odometer (ao_rest o2) ->
  rel_r (api_init d1 j (Some o1) n) (api_init d2 j (Some o2) n).
Proof.
  intros H E. apply rel_r_of.
  pose proof (f_equal d_status H) as S. pose proof (f_equal d_given H) as V. cbn in S, V.
  assert (M : o_align_mode (ao_rest o1) = o_align_mode (ao_rest o2)) by exact (f_equal o_align_mode E).
  assert (L : ba (align_new (j_vpre j) (ao_rest o1)) = ba (align_new (j_vpre j) (ao_rest o2))).
  { unfold ba, align_new. cbn [l_nav l_opt omap l_gpst l_level l_yaw l_smooth l_pre l_vpre]. rewrite E. reflexivity. }
  assert (L2 : ba (align_option (align_new (j_vpre j) (ao_rest o1)) (ao_rest o1)) = ba (align_option (align_new (j_vpre j) (ao_rest o2)) (ao_rest o2))).
  { unfold ba, align_option, align_new. cbn [l_nav l_opt omap l_gpst l_level l_yaw l_smooth l_pre l_vpre]. rewrite E. reflexivity. }
  unfold api_init. cbv zeta. rewrite M. destruct n as [p|]; [|destruct (Z.eqb (o_align_mode (ao_rest o2)) ALIGN_USE_GIVEN)]; cbn [omap];
    unfold both_d, bd; cbn [fst snd d_status d_opt d_given d_align d_fusion d_det]; rewrite E, ?S, ?V, ?L, ?L2; reflexivity.
Qed.
Lemma step_r d1 d2 c1 c2 : rel d1 d2 -> call_no_odometer c1 = call_no_odometer c2 ->
  match api_do d1 c1, api_do d2 c2 with
  | Some (e1, a1), Some (e2, a2) => rel e1 e2 /\ same_answer a1 a2
  | None, None => True
  | _, _ => False
  end.
Proof.
  intros H E. destruct c1 as [j o n|x|g| | | | |p|].
  - destruct c2 as [j2 o2 n2|x|g| | | | |p|]; try (destruct o as [[]|]; discriminate).
    destruct o as [o|], o2 as [o2|]; cbn [call_no_odometer] in E; try discriminate.
    + assert (J : j = j2) by exact (f_equal (fun c => match c with AInit a _ _ => a | _ => j end) E).
      assert (N : n = n2) by exact (f_equal (fun c => match c with AInit _ _ a => a | _ => n end) E). subst j2 n2.
      assert (O : no_odometer (ao_rest o) = no_odometer (ao_rest o2)) by exact (f_equal (fun c => match c with AInit _ (Some a) _ => ao_rest a | _ => ao_rest o end) E).
      cbn [api_do]. pose proof (init_r d1 d2 j o o2 n H O) as I.
      destruct (api_init d1 j (Some o) n) as [[e1 a1]|], (api_init d2 j (Some o2) n) as [[e2 a2]|]; cbn in I; try contradiction; auto.
      destruct I as [I ->]. split; [assumption|reflexivity].
    + exact I.
  - destruct c2 as [j2 [o2|] n2|x2|g| | | | |p|]; cbn [call_no_odometer] in E; try discriminate. injection E as <-. cbn [api_do].
    pose proof (api_time_r d1 d2 x H) as I.
    destruct (api_time d1 x) as [[e1 a1]|], (api_time d2 x) as [[e2 a2]|]; cbn in I; try contradiction; auto.
    destruct I as [I ->]. split; [assumption|reflexivity].
  - destruct c2 as [j2 [o2|] n2|x2|g2| | | | |p|]; cbn [call_no_odometer] in E; try discriminate. injection E as <-. cbn [api_do].
    pose proof (api_gnss_r d1 d2 g H) as I.
    destruct (api_gnss d1 g) as [e1 a1], (api_gnss d2 g) as [e2 a2]; cbn in I. destruct I as [I ->]. split; [assumption|reflexivity].
  - destruct c2 as [j2 [o2|] n2|x2|g2| | | | |p|]; cbn [call_no_odometer] in E; try discriminate. cbn [api_do]. unfold api_atti. split; auto.
    cbn. rewrite (out_field p_atti d1 d2), (out_field p_atti_std d1 d2); auto.
  - destruct c2 as [j2 [o2|] n2|x2|g2| | | | |p|]; cbn [call_no_odometer] in E; try discriminate. cbn [api_do]. unfold api_pos. split; auto.
    cbn. rewrite (out_field (fun p => Some (V (p_lat p) (p_lon p) (p_height p))) d1 d2), (out_field p_atti_std d1 d2); auto.
  - destruct c2 as [j2 [o2|] n2|x2|g2| | | | |p|]; cbn [call_no_odometer] in E; try discriminate. cbn [api_do]. unfold api_vel. split; auto.
    cbn. rewrite (out_field (fun p => Some (p_vn p)) d1 d2), (out_field p_vn_std d1 d2); auto.
  - destruct c2 as [j2 [o2|] n2|x2|g2| | | | |p|]; cbn [call_no_odometer] in E; try discriminate. cbn [api_do]. split; auto.
    cbn. f_equal. exact (f_equal d_status H).
  - destruct c2 as [j2 [o2|] n2|x2|g2| | | | |p2|]; cbn [call_no_odometer] in E; try discriminate. injection E as <-. cbn [api_do]. split; auto.
    pose proof (result_r d1 d2 p H) as I. unfold same_answer.
    destruct (api_result d1 p) as [a|], (api_result d2 p) as [b|]; cbn [omap] in I; try discriminate; auto. apply bp_same. exact (some_inj _ _ I).
  - destruct c2 as [j2 [o2|] n2|x2|g2| | | | |p|]; cbn [call_no_odometer] in E; try discriminate. cbn [api_do]. split; auto. reflexivity.
Qed.
Lemma run_r cs1 : forall cs2 d1 d2, rel d1 d2 -> map call_no_odometer cs1 = map call_no_odometer cs2 ->
  match api_run d1 cs1, api_run d2 cs2 with
  | Some (_, l1), Some (_, l2) => Forall2 same_answer l1 l2
  | None, None => True
  | _, _ => False
  end.
Proof.
  induction cs1 as [|c1 cs1 IH]; intros [|c2 cs2] d1 d2 H E; cbn [map] in E; try discriminate; cbn [api_run]; [constructor|].
  assert (E1 : call_no_odometer c1 = call_no_odometer c2) by congruence. assert (E2 : map call_no_odometer cs1 = map call_no_odometer cs2) by congruence.
  pose proof (step_r d1 d2 c1 c2 H E1) as S.
  destruct (api_do d1 c1) as [[e1 a1]|], (api_do d2 c2) as [[e2 a2]|]; try contradiction; auto. destruct S as [S A].
  specialize (IH cs2 e1 e2 S E2). destruct (api_run e1 cs1) as [[f1 l1]|], (api_run e2 cs2) as [[f2 l2]|]; try contradiction; auto.
Qed.
(** the scale factor that is reported *)
Definition kd (i : ins) : R := n_kd (s_nav i).
Ltac unbind H := repeat (apply bind_some in H; let a := fresh "a" in let A := fresh "A" in destruct H as (a & A & H)).
Lemma kd_forward i x j : forward i x = Some j -> kd j = kd i.
Proof.
  unfold forward. intros H. apply bind_some in H. destruct H as (t & M & H). injection H as <-.
  unfold mechanise in M. apply bind_some in M. destruct M as (a & A & M). apply bind_some in M. destruct M as (b & B & M).
  apply bind_some in M. destruct M as (c & C & M). injection M as <-. cbn.
  assert (E1 : kd a = kd i). { unfold extrapolate in A. unbind A. injection A as <-. reflexivity. }
  assert (E2 : kd b = kd a). { unfold velocity_update in B. destruct (Req_EM_T _ _); [discriminate|]. unbind B. injection B as <-. reflexivity. }
  assert (E3 : kd c = kd b). { unfold position_update in C. unbind C. injection C as <-. reflexivity. }
  unfold kd in *. cbn. congruence.
Qed.
Lemma kd_feed s t : feed s = Some t -> kd (f_ins t) = kd (f_ins s).
Proof.
  unfold feed. destruct (Z.ltb 0 (f_iter s)); [|intros H; injection H as <-; reflexivity]. intros H. apply bind_some in H. destruct H as (i & F & H).
  injection H as <-. unfold feedback in F. destruct (rates_defined _); [|discriminate]. unbind F. injection F as <-. reflexivity.
Qed.
Lemma kd_time s x t : time_update s x = Some t -> kd (f_ins t) = kd (f_ins s).
Proof.
  unfold time_update. intros H. apply bind_some in H. destruct H as (a & A & H). apply bind_some in H. destruct H as (b & B & H).
  apply bind_some in H. destruct H as (c & C & H). apply bind_some in H. destruct H as (e & D & H). injection H as <-. cbn [f_ins set_monitor].
  assert (E1 : kd (f_ins a) = kd (f_ins s)).
  { rewrite (kd_feed _ _ A). unfold take_estimate. destruct (Z.ltb 0 (f_flag s)); reflexivity. }
  assert (E2 : kd (f_ins b) = kd (f_ins a)).
  { unfold propagate in B. apply bind_some in B. destruct B as (sm & _ & B). apply bind_some in B. destruct B as (i & F & B).
    apply bind_some in B. destruct B as (phi & _ & B). injection B as <-. cbn. exact (kd_forward _ _ _ F). }
  assert (E3 : kd (f_ins c) = kd (f_ins b)).
  { unfold zupt_step in C. destruct (_ && _)%bool; [|injection C as <-; reflexivity]. destruct (is_static _); [|injection C as <-; reflexivity].
    apply bind_some in C. destruct C as (u & U & C). injection C as <-. cbn. rewrite (zero_velocity_ins _ _ U). reflexivity. }
  assert (E4 : kd (f_ins e) = kd (f_ins c)).
  { unfold nhc_step in D. destruct (_ && _)%bool; [|injection D as <-; reflexivity].
    apply bind_some in D. destruct D as (u & U & D). injection D as <-. cbn. rewrite (measure_nhc_ins _ _ U). reflexivity. }
  congruence.
Qed.
Lemma kd_gnss s g t : gnss_update s g = Some t -> kd (f_ins t) = kd (f_ins s).
Proof.
  unfold gnss_update. destruct (gnss_check g); [|intros H; injection H as <-; reflexivity].
  intros H. apply bind_some in H. destruct H as (u & U & H). injection H as <-. cbn. rewrite (measure_pos_ins _ _ _ _ U). reflexivity.
Qed.
Lemma kd_init s n o t : initialize s n o = Some t -> kd (f_ins t) = o_odo_scale o.
Proof. unfold initialize. destruct (_ || _)%bool; [discriminate|]. intros H; injection H as <-. reflexivity. Qed.
Definition kept (d : device) : Prop := d_status d = RGIOE_STATUS_NAVIGATION ->
  match d_fusion d with Some s => kd (f_ins s) = o_odo_scale (d_opt d) | None => True end.
Lemma kept_time d x d' e : kept d -> api_time d x = Some (d', e) -> kept d' /\ d_opt d' = d_opt d.
Proof.
  intros K H. destruct x as [x|]; [|injection H as <- <-; auto]. destruct d as [st o gv al fu dt]. unfold kept in *. unfold api_time in H.
  cbn [d_status d_opt d_given d_align d_fusion d_det] in *. destruct st.
  - destruct (Z.eqb (o_align_mode o) ALIGN_USE_GIVEN).
    + unfold df_time in H. destruct (smooth_update dt x) as [sm|]; [|discriminate]. injection H as <- <-. cbn. split; auto. intros _.
      destruct (df_init fu (given_nav gv o) o) as [s|] eqn:I; cbn; [|exact Logic.I]. destruct (time_update s x) as [t|] eqn:T; [|exact Logic.I].
      rewrite (kd_time _ _ _ T). unfold df_init in I. unbind I. exact (kd_init _ _ _ _ I).
    + destruct (align_imu al x) as [a|]; [|discriminate]. injection H as <- <-. cbn. split; auto. discriminate.
  - destruct (align_imu al x) as [a|]; [|discriminate]. injection H as <- <-. cbn. split; auto. destruct (l_level a); discriminate.
  - destruct (align_imu al x) as [a|]; [|discriminate]. destruct (l_level a && l_yaw a); injection H as <- <-; cbn; split; auto; try discriminate.
    intros _. destruct (df_init fu (l_nav a) o) as [s|] eqn:I; [|exact Logic.I]. unfold df_init in I. unbind I. exact (kd_init _ _ _ _ I).
  - unfold df_time in H. destruct (smooth_update dt x) as [sm|]; [|discriminate]. injection H as <- <-. cbn. split; auto. intros _.
    destruct fu as [s|]; cbn; [|exact Logic.I]. destruct (time_update s x) as [t|] eqn:T; [|exact Logic.I]. rewrite (kd_time _ _ _ T). apply K. reflexivity.
  - injection H as <- <-. cbn. split; auto.
Qed.
Lemma kept_gnss d g : kept d -> kept (fst (api_gnss d g)) /\ d_opt (fst (api_gnss d g)) = d_opt d.
Proof.
  intros K. destruct g as [g|]; [|auto]. destruct d as [st o gv al fu dt]. unfold kept in *. unfold api_gnss.
  cbn [d_status d_opt d_given d_align d_fusion d_det] in *. destruct st; cbn; split; auto; try discriminate.
  intros _. destruct fu as [s|]; cbn; [|exact Logic.I]. destruct (gnss_update s g) as [t|] eqn:T; [|exact Logic.I]. rewrite (kd_gnss _ _ _ T). apply K. reflexivity.
Qed.
Lemma kept_run cs : forall d d' l, kept d -> Forall quiet cs -> api_run d cs = Some (d', l) -> kept d' /\ d_opt d' = d_opt d.
Proof.
  induction cs as [|c cs IH]; intros d d' l K Q H; cbn [api_run] in H; [injection H as <- <-; auto|].
  inversion Q as [|? ? q Q']; subst.
  assert (G : forall d1 a, api_do d c = Some (d1, a) -> kept d1 /\ d_opt d1 = d_opt d).
  { intros d1 a E. destruct c as [j o n|x|g| | | | |p|]; cbn [api_do] in E; try (injection E as <- <-; auto; fail).
    - contradiction.
    - destruct (api_time d x) as [[e1 a1]|] eqn:T; [|discriminate]. injection E as <- <-. exact (kept_time _ _ _ _ K T).
    - pose proof (kept_gnss d g K) as T. destruct (api_gnss d g) as [e1 a1]. injection E as <- <-. exact T. }
  destruct (api_do d c) as [[d1 a]|]; [|discriminate]. destruct (G _ _ eq_refl) as [G1 G2].
  destruct (api_run d1 cs) as [[d2 l2]|] eqn:E; [|discriminate]. injection H as <- <-.
  destruct (IH _ _ _ G1 Q' E) as [I1 I2]. split; [exact I1|congruence].
Qed.
Lemma init_kept d j ao n d0 : api_init d j (Some ao) n = Some (d0, RGIOE_OK) -> kept d0 /\ d_opt d0 = ao_rest ao.
Proof.
  unfold api_init. destruct n as [p|]; [|destruct (Z.eqb _ _)]; intros H; try discriminate; injection H as <-; split; auto; intros E; discriminate E.
Qed.
Lemma reported_kd d j ao n d0 cs d1 l p r : api_init d j (Some ao) n = Some (d0, RGIOE_OK) -> Forall quiet cs -> api_run d0 cs = Some (d1, l) ->
  d_status d1 = RGIOE_STATUS_NAVIGATION -> api_result d1 p = Some r -> p_kd r = o_odo_scale (ao_rest ao).
Proof.
  intros I Q H S O. destruct (init_kept _ _ _ _ _ I) as [K E]. destruct (kept_run _ _ _ _ K Q H) as [K1 E1].
  unfold api_result in O. rewrite S in O. unfold df_output in O. specialize (K1 S). destruct (d_fusion d1) as [s|]; [|discriminate]. cbn [bind] in O.
  unfold output in O. destruct (out_place s); [|discriminate]. injection O as <-. cbn. unfold kd in K1. congruence.
Qed.
