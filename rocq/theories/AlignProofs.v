(** The flags of the alignment follow from its inputs. *)
From Coq Require Import Reals ZArith List Bool Lia Lra.
From Verif Require Import RealMath EarthModel ConvertModel SmoothModel SmoothSpec SmoothProofs SmoothProofs2 InsModel FusionBase AlignModel ApiModel ApiSpec.
Import ListNotations.
Local Open Scope R_scope.

Fixpoint al_imus (cs : list align_call) : list imu :=
  match cs with [] => [] | AlImu x :: r => x :: al_imus r | AlGnss _ :: r => al_imus r end.
Fixpoint al_fixes (cs : list align_call) : list gnss :=
  match cs with [] => [] | AlImu _ :: r => al_fixes r | AlGnss g :: r => g :: al_fixes r end.

Lemma al_imus_app a b : al_imus (a ++ b) = al_imus a ++ al_imus b.
Proof. induction a as [|[x|g] a IH]; simpl; rewrite ?IH; reflexivity. Qed.
Lemma al_fixes_app a b : al_fixes (a ++ b) = al_fixes a ++ al_fixes b.
Proof. induction a as [|[x|g] a IH]; simpl; rewrite ?IH; reflexivity. Qed.

Lemma align_run_app a cs ds : align_run a (cs ++ ds) = bind (align_run a cs) (fun b => align_run b ds).
Proof. revert a. induction cs as [|c cs IH]; intros a; simpl; [reflexivity|]. destruct (align_do a c); simpl; auto. Qed.
Lemma align_run_snoc a cs c : align_run a (cs ++ [c]) = bind (align_run a cs) (fun b => align_do b c).
Proof. rewrite align_run_app. destruct (align_run a cs); simpl; [|reflexivity]. destruct (align_do a0 c); reflexivity. Qed.

Lemma smooth_run_snoc s h x : smooth_run s (h ++ [x]) = match smooth_run s h with Some t => smooth_update t x | None => None end.
Proof.
  revert s. induction h as [|y h IH]; intros s; simpl.
  - destruct (smooth_update s x); reflexivity.
  - destruct (smooth_update s y); auto.
Qed.

Lemma found_static_nil : ~ found_static [].
Proof. intros [k [H _]]. rewrite firstn_nil in H. simpl in H. lia. Qed.
Lemma found_static_snoc h x : found_static (h ++ [x]) <-> found_static h \/ static_now (h ++ [x]).
Proof.
  split.
  - intros [k H]. destruct (le_lt_dec (length (h ++ [x])) k) as [L|L].
    + right. rewrite firstn_all2 in H; auto.
    + left. exists k. rewrite firstn_app in H. rewrite app_length in L; simpl in L.
      replace (k - length h)%nat with 0%nat in H by lia. simpl in H. rewrite app_nil_r in H. exact H.
  - intros [[k H]|H].
    + exists (min k (length h)). rewrite firstn_app. replace (min k (length h) - length h)%nat with 0%nat by lia.
      simpl. rewrite app_nil_r. destruct (Nat.le_ge_cases k (length h)).
      * rewrite Nat.min_l; auto.
      * rewrite Nat.min_r; auto. rewrite firstn_all. rewrite firstn_all2 in H; auto.
    + exists (length (h ++ [x])). rewrite firstn_all. exact H.
Qed.

Lemma found_moving_nil th : ~ found_moving th [].
Proof. intros (l & p & g & r & E & _). destruct l; discriminate. Qed.
Lemma found_moving_snoc th fs g : found_moving th (fs ++ [g]) <->
  found_moving th fs \/ exists l p, fs = l ++ [p] /\ moves th p g.
Proof.
  split.
  - intros (l & p & q & r & E & Mv). destruct r as [|r0 r'] using rev_ind.
    + right. exists l, p. assert (E' : fs ++ [g] = (l ++ [p]) ++ [q]) by (rewrite <- app_assoc; exact E).
      apply app_inj_tail in E'. destruct E'; subst. auto.
    + left. exists l, p, q, r'. assert (E' : fs ++ [g] = (l ++ p :: q :: r') ++ [r0]) by (rewrite <- app_assoc; exact E).
      apply app_inj_tail in E'. destruct E'; subst. auto.
  - intros [(l & p & q & r & E & Mv)|(l & p & E & Mv)].
    + exists l, p, q, (r ++ [g]). subst. rewrite <- app_assoc. auto.
    + exists l, p, g, []. subst. rewrite <- app_assoc. auto.
Qed.

(** the displacement in the code is the one of the specification *)
Lemma step_length p g : vnorm (align_step p g) = travelled p g.
Proof.
  unfold vnorm, align_step, travelled, distance6, dN_h, dE_h, dot, deg; cbn [vx vy vz].
  f_equal.
  replace (g_lat g * (PI / 180) / 2 + g_lat p * (PI / 180) / 2) with ((g_lat g * (PI / 180) + g_lat p * (PI / 180)) / 2) by field.
  replace (g_height g / 2 + g_height p / 2) with ((g_height g + g_height p) / 2) by field.
  ring.
Qed.
Lemma moving_spec o p g : align_moving o p g = true <-> o_align_vel o < travelled p g < 1000.
Proof.
  unfold align_moving. rewrite step_length.
  destruct (Rlt_dec (o_align_vel o) (travelled p g)); destruct (Rlt_dec (travelled p g) 1000); simpl; split; intros; auto; try discriminate; tauto.
Qed.

(** last element of a list of fixes, or what the constructor stores *)
Definition last_fix (fs : list gnss) : gnss := last fs gnss_none.
Lemma is_zero_true x : is_zero x = true <-> x = 0.
Proof. unfold is_zero. destruct (Req_EM_T x 0); split; intros; auto; try discriminate; contradiction. Qed.
Lemma is_zero_false x : is_zero x = false <-> x <> 0.
Proof. unfold is_zero. destruct (Req_EM_T x 0); split; intros; auto; try discriminate; contradiction. Qed.

Lemma align_flags v0 o cs a : align_run (align_new v0 o) cs = Some a ->
  l_opt a = o /\ smooth_run align_smooth (al_imus cs) = Some (l_smooth a) /\ l_pre a = last_fix (al_fixes cs) /\
  (l_level a = true <-> found_static (al_imus cs)) /\ (l_yaw a = true <-> found_moving (o_align_vel o) (al_fixes cs)).
Proof.
  revert a. induction cs as [|c cs IH] using rev_ind; intros a H.
  - simpl in H. injection H as <-. simpl. repeat split; auto; try discriminate.
    + intros F. destruct (found_static_nil F).
    + intros F. destruct (found_moving_nil _ F).
  - rewrite align_run_snoc in H. destruct (align_run (align_new v0 o) cs) as [b|] eqn:E; [|discriminate].
    simpl in H. destruct (IH b eq_refl) as (Ho & Hs & Hp & Hl & Hy). clear IH.
    destruct c as [x|g]; simpl in H.
    + rewrite al_imus_app, al_fixes_app. simpl. rewrite app_nil_r.
      unfold align_imu in H. destruct (smooth_update (l_smooth b) x) as [sm|] eqn:Es; [|discriminate].
      assert (R : smooth_run align_smooth (al_imus cs ++ [x]) = Some sm) by (rewrite smooth_run_snoc, Hs; exact Es).
      assert (St : is_static sm = true <-> static_now (al_imus cs ++ [x])).
      { apply static_spread; [lia|lia|exact R]. }
      destruct (l_level b) eqn:Lb.
      * injection H as <-. simpl. repeat split; auto; try tauto.
        intros _. apply found_static_snoc. left. apply Hl. reflexivity.
      * destruct (is_static sm) eqn:Si; injection H as <-; simpl; repeat split; auto; try tauto; intros K.
        -- apply found_static_snoc. right. apply St. reflexivity.
        -- discriminate.
        -- apply found_static_snoc in K. destruct K as [K|K]; [apply Hl; exact K|]. apply St in K. discriminate.
    + injection H as <-. rewrite al_imus_app, al_fixes_app. simpl. rewrite app_nil_r.
      assert (La : last_fix (al_fixes cs ++ [g]) = g) by (unfold last_fix; apply last_last).
      assert (Z : forall l p, al_fixes cs = l ++ [p] -> l_pre b = p) by (intros l p K; rewrite Hp, K; unfold last_fix; apply last_last).
      assert (N : vx (g_std (l_pre b)) <> 0 -> exists l, al_fixes cs = l ++ [l_pre b]).
      { intros K. destruct (al_fixes cs) as [|z zs] using rev_ind.
        - rewrite Hp in K. simpl in K. contradiction.
        - exists zs. rewrite Hp. unfold last_fix. rewrite last_last. reflexivity. }
      unfold align_gnss. rewrite Ho. destruct (is_zero (vx (g_std (l_pre b)))) eqn:Ez; simpl.
      * apply is_zero_true in Ez. repeat split; auto; try tauto.
        -- intros K. apply found_moving_snoc. left. apply Hy. exact K.
        -- intros K. apply found_moving_snoc in K. destruct K as [K|(l & p & E1 & [K _])]; [apply Hy; exact K|].
           rewrite (Z _ _ E1) in Ez. contradiction.
      * apply is_zero_false in Ez. repeat split; auto; try tauto.
        -- intros K. apply found_moving_snoc. apply orb_true_iff in K. destruct K as [K|K]; [left; apply Hy; exact K|].
           right. destruct (N Ez) as [l E1]. exists l, (l_pre b). split; auto. split; auto. apply (moving_spec o). exact K.
        -- intros K. apply orb_true_iff. apply found_moving_snoc in K. destruct K as [K|(l & p & E1 & [_ K])]; [left; apply Hy; exact K|].
           right. rewrite (Z _ _ E1). apply moving_spec. exact K.
Qed.
