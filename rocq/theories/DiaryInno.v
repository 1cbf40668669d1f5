(** The recorded innovations. *)
From Coq Require Import Reals ZArith List Bool Lia Lra.
From Verif Require Import RealMath EarthModel ConvertModel ConvertSpec ConvertProofs SmoothModel InsModel InsProofs FusionBase FusionModel FusionSpec FusionProofs FusionInno AlignModel AhrsModel ApiModel
  ApiSpec ApiProofs PostTime DiaryModel DiarySpec DiaryProofs.
Import ListNotations.
Local Open Scope R_scope.

(** what holds of the filter of a navigating device *)
Definition sound (y : diary) : Prop := forall s, d_fusion (y_dev y) = Some s ->
  cne_ok (f_ins s) /\ tm s = y_time y /\ f_opt s = d_opt (y_dev y).
Definition ready (y : diary) : Prop := navigating y /\ sound y.

Lemma after_sample f det x f' sm s o : df_time f det x = Some (f', sm) -> f' = Some s -> (forall s0, f = Some s0 -> f_opt s0 = o) ->
  cne_ok (f_ins s) /\ tm s = i_gpst x /\ f_opt s = o.
Proof.
  unfold df_time. destruct (smooth_update det x) as [sm1|]; [|discriminate]. intros H. injection H as <- _. intros H O.
  apply bind_some in H. destruct H as (s0 & E & H). split; [exact (time_update_cne _ _ _ H)|]. split; [exact (update_time _ _ _ H)|].
  destruct (time_update_counts _ _ _ H) as (_ & -> & _). auto.
Qed.
Lemma ready_step y c y' m : (ready y \/ about y) -> quiet c -> diary_do y c = Some (y', m) -> ready y' \/ about y'.
Proof.
  intros N Q E.
  assert (D : (exists x, c = ATime (Some x)) \/ (forall x, c <> ATime (Some x))).
  { destruct c as [| [x|] | | | | | | |]; try (right; congruence). left; eauto. }
  destruct D as [[x ->]|D].
  - left. split.
    + destruct N as [[N _]|N]; [exact (proj1 (nav_sample _ _ _ _ N E))|exact (proj1 (about_sample _ _ _ _ N E))].
    + destruct N as [[N S]|[N G]]; intros s Hs; cbn [diary_do] in E; unfold diary_time, api_time in E; unfold navigating in N; rewrite N in E.
      * destruct (df_time _ _ _) as [[f sm]|] eqn:T; [|discriminate]. injection E as <- <-. cbn [y_dev y_time d_fusion d_with_fusion d_opt] in *.
        apply (after_sample _ _ _ _ _ _ _ T Hs). intros s0 H0. apply (S s0 H0).
      * rewrite G in E. simpl (_ =? _)%Z in E. cbv iota in E.
        destruct (df_time _ _ _) as [[f sm]|] eqn:T; [|discriminate]. injection E as <- <-. cbn [y_dev y_time d_fusion d_with_fusion d_with_status d_opt] in *.
        apply (after_sample _ _ _ _ _ _ _ T Hs). intros s0 H0. unfold df_init in H0. apply bind_some in H0. destruct H0 as (f0 & _ & H0).
        apply bind_some in H0. destruct H0 as (n0 & _ & H0). unfold initialize in H0. match type of H0 with (if ?b then _ else _) = _ => destruct b end; [discriminate|]. injection H0 as <-. reflexivity.
  - destruct N as [[N S]|N]; [left|right; exact (proj1 (about_other _ _ _ _ N Q D E))].
    destruct (nav_other _ _ _ _ N Q D E) as (N1 & T1 & _ & O1 & _). split; [exact N1|]. intros s Hs.
    rewrite T1, O1. destruct c as [j o n|[x|]|[g|]| | | | |p| ]; try contradiction; try (exfalso; eapply D; reflexivity);
      try (cbn in E; injection E as <- <-; exact (S s Hs)).
    cbn [diary_do] in E. unfold diary_gnss, api_gnss in E. unfold navigating in N. rewrite N in E. injection E as <- <-.
    cbn [fst y_dev d_fusion d_with_fusion] in Hs. apply bind_some in Hs. destruct Hs as (s0 & H0 & H).
    destruct (S s0 H0) as (A & B & C). destruct (gnss_update_counts _ _ _ H) as (_ & -> & _). rewrite (gnss_time _ _ _ H).
    split; [exact (do_call_cne s0 (CallGnss g) s A H)|auto].
Qed.
Lemma ready_run cs : forall y y' l, ready y \/ about y -> Forall quiet cs -> diary_run y cs = Some (y', l) -> ready y' \/ about y'.
Proof.
  induction cs as [|c cs IH]; intros y y' l N F H; simpl in H; [injection H as <- <-; exact N|].
  destruct (diary_do y c) as [[y1 m1]|] eqn:E; [|discriminate]. destruct (diary_run y1 cs) as [[y2 m2]|] eqn:E2; [|discriminate].
  injection H as <- <-. inversion F; subst. apply (IH y1 y2 m2); auto. eapply ready_step; eauto.
Qed.

Definition place_of (q : pva) : vec := lla_to_xyz (V (p_lat q * deg) (p_lon q * deg) (p_height q)).
Definition fix_at (g : gnss) : vec := lla_to_xyz (V (g_lat g * deg) (g_lon g * deg) (g_height g)).

Lemma inno_of_fix y g y' m : navigating y -> diary_do y (AGnss (Some g)) = Some (y', m) ->
  inno_part m = if fix_mode (g_mode g) then
    [(y_time y, bind (d_fusion (y_dev y)) (fun s => Some (pos_z (f_ins s) (o_lb_gnss (d_opt (y_dev y))) (fix_place g))),
      let v x := x * x * o_gnss_scale (d_opt (y_dev y)) in V (v (vx (g_std g))) (v (vy (g_std g))) (v (vz (g_std g))))] else [].
Proof.
  intros N E. assert (D : forall x, AGnss (Some g) <> ATime (Some x)) by congruence.
  destruct (nav_other _ (AGnss (Some g)) _ _ N I D E) as (_ & _ & _ & _ & ->). unfold fix_msgs. rewrite <- mode_rule.
  destruct (gnss_check g); reflexivity.
Qed.
Lemma inno_other y c y' m : navigating y \/ about y -> quiet c -> (forall g, c <> AGnss (Some g)) -> diary_do y c = Some (y', m) -> inno_part m = [].
Proof.
  intros N Q G E.
  assert (D : (exists x, c = ATime (Some x)) \/ (forall x, c <> ATime (Some x))).
  { destruct c as [| [x|] | | | | | | |]; try (right; congruence). left; eauto. }
  destruct D as [[x ->]|D].
  - destruct N as [N|N]; [destruct (nav_sample _ _ _ _ N E) as (_ & _ & _ & -> & _)|destruct (about_sample _ _ _ _ N E) as (_ & _ & _ & -> & _)]; reflexivity.
  - destruct N as [N|N]; [destruct (nav_other _ _ _ _ N Q D E) as (_ & _ & _ & _ & ->)|destruct (about_other _ _ _ _ N Q D E) as (_ & -> & _)]; [|reflexivity].
    destruct c as [| | [g|] | | | | | |]; try reflexivity. exfalso. eapply G; reflexivity.
Qed.

Lemma local_zero lat lon : local_vector lat lon vzero = vzero.
Proof. unfold local_vector, vadd, vscale, vzero. simpl. f_equal; ring. Qed.
Lemma mvec_zero m : mvec m vzero = vzero.
Proof. unfold mvec, vzero. simpl. f_equal; ring. Qed.
(** the innovation of a fix, in terms of what a result read just before reports; antenna at the unit *)
Lemma inno_reported y ao p cs y1 l g y2 m pq d q : started y ao p -> o_project (ao_rest ao) = false -> o_lb_gnss (ao_rest ao) = vzero ->
  Forall quiet cs -> diary_run y cs = Some (y1, l) -> d_status (y_dev y1) = RGIOE_STATUS_NAVIGATION ->
  api_do (y_dev y1) (AResult pq) = Some (d, RPva (Some q)) -> diary_do y1 (AGnss (Some g)) = Some (y2, m) ->
  fix_mode (g_mode g) = true ->
  exists z, inno_part m = [(p_gpst q, Some z, vscale (o_gnss_scale (ao_rest ao)) (V (vx (g_std g) * vx (g_std g)) (vy (g_std g) * vy (g_std g)) (vz (g_std g) * vz (g_std g))))] /\
    local_vector (p_lat q * deg) (p_lon q * deg) z = vsub (place_of q) (fix_at g).
Proof.
  intros S Pr Lb F H N Hr Hg Md. destruct (started_about _ _ _ S) as (A & _ & O).
  assert (Rd : ready y1). { destruct (ready_run _ _ _ _ (or_intror A) F H) as [?|[X _]]; [assumption|congruence]. }
  destruct Rd as [N1 So]. cbn [api_do] in Hr. injection Hr as _ Hq. unfold api_result in Hq. rewrite N in Hq.
  unfold df_output in Hq. destruct (d_fusion (y_dev y1)) as [s|] eqn:Fs; [|discriminate]. cbn [bind] in Hq.
  destruct (So s Fs) as (Cn & Tm & Op).
  assert (O1 : d_opt (y_dev y1) = ao_rest ao).
  { rewrite <- O. destruct (diary_run_api _ _ _ _ H) as [ll Hl]. clear - Hl F H A.
    revert y y1 l F H A Hl. assert (K : forall cs y y1 l, Forall quiet cs -> diary_run y cs = Some (y1, l) -> navigating y \/ about y -> d_opt (y_dev y1) = d_opt (y_dev y)).
    { induction cs0 as [|c cs0 IH]; intros y y1 l F H N; simpl in H; [injection H as <- <-; reflexivity|].
      destruct (diary_do y c) as [[ya ma]|] eqn:E; [|discriminate]. destruct (diary_run ya cs0) as [[yb mb]|] eqn:E2; [|discriminate].
      injection H as <- <-. inversion F; subst. rewrite (IH _ _ _ H2 E2 (follows _ _ _ _ N H1 E)).
      assert (D : (exists x, c = ATime (Some x)) \/ (forall x, c <> ATime (Some x))).
      { destruct c as [| [x|] | | | | | | |]; try (right; congruence). left; eauto. }
      destruct D as [[x ->]|D].
      - destruct N as [N|N]; [exact (proj2 (proj2 (proj2 (proj2 (nav_sample _ _ _ _ N E)))))|exact (proj2 (proj2 (proj2 (proj2 (about_sample _ _ _ _ N E)))))].
      - destruct N as [N|N]; [exact (proj1 (proj2 (proj2 (proj2 (nav_other _ _ _ _ N H1 D E)))))|exact (proj2 (proj2 (proj2 (about_other _ _ _ _ N H1 D E))))]. }
    intros. eapply K; eauto. }
  assert (Q : place_of q = lla_to_xyz (n_pos (s_nav (f_ins s))) /\ p_lat q * deg = vx (n_pos (s_nav (f_ins s))) /\ p_lon q * deg = vy (n_pos (s_nav (f_ins s))) /\ p_gpst q = tm s).
  { unfold output, out_place in Hq. rewrite Op, O1, Pr in Hq. injection Hq as <-. unfold place_of. cbn [p_lat p_lon p_height p_gpst].
    assert (Dg : deg <> 0) by (unfold deg; pose proof PI_RGT_0; lra).
    assert (B : forall a, a / deg * deg = a) by (intros a; field; exact Dg). rewrite !B. destruct (n_pos (s_nav (f_ins s))). auto. }
  destruct Q as (Q1 & Q2 & Q3 & Q4).
  exists (pos_z (f_ins s) vzero (fix_place g)). split.
  - rewrite (inno_of_fix _ _ _ _ N1 Hg), Md, Fs, O1, Lb, Q4, Tm. cbn [bind]. unfold vscale. cbn [vx vy vz]. cbv zeta.
    assert (E : forall a b : R, a * a * b = b * (a * a)) by (intros; ring). rewrite !E. reflexivity.
  - rewrite Q2, Q3, Q1. pose proof (innovation_axes (f_ins s) vzero (fix_place g) Cn) as X. cbv zeta in X. rewrite <- X.
    rewrite mvec_zero, local_zero. unfold fix_at, fix_place. f_equal. unfold vadd, vzero. destruct (lla_to_xyz _). simpl. f_equal; ring.
Qed.
