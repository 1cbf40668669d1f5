From Coq Require Import QArith Reals List Bool Lia Lra.
From Verif Require Import RealMath MergeModel OutageModel SmoothModel FusionBase InsModel InsProofs KalmanModel FusionModel AlignModel
  ApiModel ApiSpec ApiProofs PostModel PostSpec PostProofs.
Import ListNotations.
Local Open Scope R_scope.

Definition tm (s : fusion) : R := n_gpst (s_nav (f_ins s)).

Lemma forward_time i x i' : forward i x = Some i' -> n_gpst (s_nav i') = i_gpst x.
Proof. unfold forward. intros H. apply bind_some in H. destruct H as (t & _ & H). now injection H as <-. Qed.
Lemma propagate_time s x s' : propagate s x = Some s' -> tm s' = i_gpst x.
Proof.
  unfold propagate. intros H. apply bind_some in H. destruct H as (sm & _ & H). apply bind_some in H. destruct H as (i & A & H).
  apply bind_some in H. destruct H as (phi & _ & H). injection H as <-. unfold tm. cbn [f_ins set_epoch]. eapply forward_time; eauto.
Qed.
Lemma zero_velocity_ins s s' : zero_velocity s = Some s' -> f_ins s' = f_ins s.
Proof.
  unfold zero_velocity. intros H. apply bind_some in H. destruct H as (k & _ & H). destruct (o_zupta (f_opt s)).
  - destruct (is_zero _); [discriminate|]. apply bind_some in H. destruct H as (k2 & _ & H). now injection H as <-.
  - now injection H as <-.
Qed.
Lemma measure_nhc_ins s s' : measure_nhc s = Some s' -> f_ins s' = f_ins s.
Proof. unfold measure_nhc. intros H. apply bind_some in H. destruct H as (k & _ & H). now injection H as <-. Qed.
Lemma measure_pos_ins s p r s' : measure_pos s p r = Some s' -> f_ins s' = f_ins s.
Proof. unfold measure_pos. intros H. apply bind_some in H. destruct H as (k & _ & H). now injection H as <-. Qed.
Lemma zupt_time s s' : zupt_step s = Some s' -> tm s' = tm s.
Proof.
  unfold zupt_step. destruct (_ && _)%bool.
  - destruct (is_static _).
    + intros H. apply bind_some in H. destruct H as (k & A & H). injection H as <-. unfold tm. cbn [f_ins set_ins sensors_set ins_nav s_nav n_gpst nav_info].
      now rewrite (zero_velocity_ins _ _ A).
    + intros H. now injection H as <-.
  - intros H. now injection H as <-.
Qed.
Lemma nhc_time s s' : nhc_step s = Some s' -> tm s' = tm s.
Proof.
  unfold nhc_step. match goal with |- context [if ?b then _ else _] => destruct b end.
  - intros H. apply bind_some in H. destruct H as (k & A & H). injection H as <-. unfold tm. cbn [f_ins set_ins sensors_set ins_nav s_nav n_gpst nav_info].
    now rewrite (measure_nhc_ins _ _ A).
  - intros H. now injection H as <-.
Qed.
Lemma update_time s x s' : time_update s x = Some s' -> tm s' = i_gpst x.
Proof.
  unfold time_update. intros H. apply bind_some in H. destruct H as (s1 & _ & H). apply bind_some in H. destruct H as (s2 & A & H).
  apply bind_some in H. destruct H as (s3 & B & H). apply bind_some in H. destruct H as (s4 & C & H). injection H as <-.
  unfold tm at 1. cbn [f_ins set_monitor]. change (tm s4 = i_gpst x). rewrite (nhc_time _ _ C), (zupt_time _ _ B). eapply propagate_time; eauto.
Qed.
Lemma gnss_time s g s' : gnss_update s g = Some s' -> tm s' = tm s.
Proof.
  unfold gnss_update. destruct (gnss_check g).
  - intros H. apply bind_some in H. destruct H as (s1 & A & H). injection H as <-. unfold tm. cbn [f_ins set_height].
    now rewrite (measure_pos_ins _ _ _ _ A).
  - intros H. now injection H as <-.
Qed.
Lemma initialize_time s n o s' : initialize s n o = Some s' -> tm s' = n_gpst n.
Proof. unfold initialize. match goal with |- context [if ?b then _ else _] => destruct b end; [discriminate|]. intros H. now injection H as <-. Qed.
Lemma align_imu_time a x a' n : align_imu a x = Some a' -> l_nav a' = Some n -> n_gpst n = i_gpst x.
Proof.
  unfold align_imu. destruct (smooth_update _ x) as [sm|]; [|discriminate]. destruct (l_level a); [|destruct (is_static sm)].
  - intros H. injection H as <-. cbn [l_nav]. destruct (l_nav a); [|discriminate]. intros H. now injection H as <-.
  - intros H. injection H as <-. cbn [l_nav]. destruct (is_zero _); [discriminate|]. destruct (l_nav a); [|discriminate]. intros H. now injection H as <-.
  - intros H. injection H as <-. cbn [l_nav]. destruct (l_nav a); [|discriminate]. intros H. now injection H as <-.
Qed.

(** in NAVIGATION the time of the filter is [t] *)
Definition nav_at (d : device) (t : R) : Prop :=
  d_status d = RGIOE_STATUS_NAVIGATION -> forall s, d_fusion d = Some s -> tm s = t.
Lemma time_step d x d' e : api_time d (Some x) = Some (d', e) -> nav_at d' (i_gpst x).
Proof.
  unfold api_time, nav_at. destruct (d_status d) eqn:S.
  - destruct (_ =? _)%Z.
    + unfold df_time. destruct (smooth_update _ _) as [sm|]; [|discriminate]. intros H. injection H as <- <-. cbn. intros _ s F.
      apply bind_some in F. destruct F as (f & _ & F). eapply update_time; eauto.
    + destruct (align_imu _ _); [|discriminate]. intros H. injection H as <- <-. discriminate.
  - destruct (align_imu _ _) as [a|]; [|discriminate]. intros H. injection H as <- <-. cbn. destruct (l_level a); discriminate.
  - destruct (align_imu _ _) as [a|] eqn:A; [|discriminate]. destruct (l_level a && l_yaw a).
    + intros H. injection H as <- <-. cbn. intros _ s F. unfold df_init in F. apply bind_some in F. destruct F as (f & _ & F).
      apply bind_some in F. destruct F as (n & N & F). rewrite (initialize_time _ _ _ _ F). eapply align_imu_time; eauto.
    + intros H. injection H as <- <-. cbn. rewrite S. discriminate.
  - unfold df_time. destruct (smooth_update _ _) as [sm|]; [|discriminate]. intros H. injection H as <- <-. cbn. intros _ s F.
    apply bind_some in F. destruct F as (f & _ & F). eapply update_time; eauto.
  - intros H. injection H as <- <-. rewrite S. discriminate.
Qed.
Lemma quiet_step d c d' a t : quiet c -> imus [c] = [] -> api_do d c = Some (d', a) -> nav_at d t -> nav_at d' t.
Proof.
  destruct c as [j o n|[x|]|[g|]| | | | |p|]; try (intros _ _ H; simpl in H; injection H as <- <-; tauto); simpl.
  - tauto.
  - discriminate.
  - intros _ _ H N. unfold api_gnss in H. destruct (d_status d) eqn:S; injection H as <- <-; unfold nav_at in *; cbn; rewrite ?S; try discriminate; try exact N.
    intros _ s F. apply bind_some in F. destruct F as (f & F1 & F). rewrite (gnss_time _ _ _ F). now apply N.
Qed.
Lemma imus_app a b : imus (a ++ b) = imus a ++ imus b.
Proof. induction a as [|c a IH]; [reflexivity|]. destruct c as [j o n|[x|]|g| | | | |p|]; simpl; rewrite ?IH; reflexivity. Qed.
Lemma run_time cs : forall d d' l, Forall quiet cs -> api_run d cs = Some (d', l) ->
  (forall t, imus cs = [] -> nav_at d t -> nav_at d' t) /\ (forall h x, imus cs = h ++ [x] -> nav_at d' (i_gpst x)).
Proof.
  induction cs as [|c cs IH]; intros d d' l Q E; simpl in E.
  - injection E as <- <-. split; [auto|]. intros h x H. destruct h; discriminate.
  - destruct (api_do d c) as [[d1 a]|] eqn:A; [|discriminate]. destruct (api_run d1 cs) as [[d2 l2]|] eqn:B; [|discriminate].
    injection E as <- <-. inversion Q; subst. destruct (IH _ _ _ H2 B) as (I1 & I2).
    change (c :: cs) with ([c] ++ cs). rewrite imus_app.
    assert ((exists x, c = ATime (Some x)) \/ imus [c] = []) as [(x & ->)|Z].
    { destruct c as [j o n|[x|]|g| | | | |p|]; simpl; eauto. }
    + split; [discriminate|]. intros h y H. cbn [api_do] in A. destruct (api_time d (Some x)) as [[dd e]|] eqn:T; [|discriminate]. injection A as <- <-.
      destruct (imus cs) as [|z zs] eqn:ZZ.
      * cbn [imus app] in H. destruct h as [|h1 [|h2 h]]; try discriminate. injection H as ->. apply I1; [reflexivity|]. eapply time_step; eauto.
      * destruct h as [|h1 h]; [discriminate|]. injection H as -> H. eapply I2. eassumption.
    + rewrite Z. cbn [app]. split.
      * intros t H N. apply I1; [exact H|]. eapply quiet_step; eauto.
      * intros h x H. eapply I2; eauto.
Qed.
Lemma output_time s p : output s = Some p -> p_gpst p = tm s.
Proof. unfold output. destruct (out_place s); [|discriminate]. intros H. now injection H as <-. Qed.

Lemma init_status d j ao n d0 e : api_init d j (Some ao) (Some n) = Some (d0, e) -> d_status d0 = RGIOE_STATUS_INIT /\ e = RGIOE_OK.
Proof. simpl. intros H. now injection H as <- <-. Qed.
Lemma calls_quiet c ss : Forall quiet (calls_of c ss).
Proof.
  induction ss as [|s ss IH]; [constructor|]. simpl. apply Forall_app. split; [|exact IH]. unfold call_of.
  destruct (s_type s); [repeat constructor|]. destruct (_ && _); repeat constructor.
Qed.
Lemma calls_imus c ss : imus (calls_of c ss) = map (pc_imu_of c) (filter (fun s => match s_type s with DATA_TYPE_IMU => true | _ => false end) ss).
Proof.
  induction ss as [|s ss IH]; [reflexivity|]. simpl. rewrite imus_app, IH. unfold call_of. destruct (s_type s); simpl; [reflexivity|].
  destruct (_ && _); reflexivity.
Qed.
