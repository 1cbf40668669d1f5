(** Small steps with changing rates: derivatives at 0 (C87). *)
From Coq Require Import Reals Lra Psatz.
From Coquelicot Require Import Coquelicot.
From Verif Require Import RealMath EarthModel ConvertModel ConvertSpec ConvertProofs EarthProofs MathWrap SmoothModel
  InsModel InsProofs InsRest InsRest2 FusionBase JacobianSpec JacobianBase JacobianProofs MotionSpec.
Open Scope R_scope.

(** differentiable at 0 *)
Definition sm (f : R -> R) : Prop := ex_derive f 0.
Definition vsm (f : R -> vec) : Prop := sm (fun e => vx (f e)) /\ sm (fun e => vy (f e)) /\ sm (fun e => vz (f e)).
Definition near (P : R -> Prop) : Prop := exists r, 0 < r /\ forall e, Rabs e < r -> P e.
Lemma near_imp (P S : R -> Prop) : (forall e, P e -> S e) -> near P -> near S.
Proof. intros H (r & A & B). exists r. split; auto. Qed.
Lemma near_two (P S : R -> Prop) : near P -> near S -> near (fun e => P e /\ S e).
Proof. apply near_and. Qed.
Lemma near_gt f c : sm f -> c < f 0 -> near (fun e => c < f e).
Proof.
  intros H W. assert (CT : continuous f 0) by (apply (@ex_derive_continuous R_AbsRing R_NormedModule); exact H).
  destruct (CT (fun y => c < y)) as [r K].
  - assert (W' : 0 < f 0 - c) by lra. exists (mkposreal _ W'). intros y Hy. unfold ball in Hy; simpl in Hy.
    unfold AbsRing_ball, abs, minus, plus, opp in Hy; simpl in Hy. apply Rabs_def2 in Hy. lra.
  - exists r. split; [apply cond_pos|]. intros e He. apply K. unfold ball; simpl. unfold AbsRing_ball, abs, minus, plus, opp; simpl.
    replace (e + - 0) with e by ring. exact He.
Qed.
Lemma near_lt f c : sm f -> f 0 < c -> near (fun e => f e < c).
Proof.
  intros H W. apply (near_imp (fun e => - c < - f e)); [intros; lra|]. apply (near_gt (fun e => - f e)); [|lra].
  apply @ex_derive_opp. exact H.
Qed.
Lemma sm_const c : sm (fun _ => c). Proof. apply @ex_derive_const. Qed.
Lemma sm_id : sm (fun e => e). Proof. apply @ex_derive_id. Qed.
Lemma sm_of f l : is_derive f 0 l -> sm f. Proof. intros H. exists l. exact H. Qed.
Lemma vsm_const c : vsm (fun _ => c). Proof. refine (conj _ (conj _ _)); apply sm_const. Qed.
Lemma vsm_of f d : vdiff f d -> vsm f. Proof. intros (A & B & C). refine (conj _ (conj _ _)); eexists; eassumption. Qed.
Lemma sm_plus f g : sm f -> sm g -> sm (fun e => f e + g e). Proof. apply @ex_derive_plus. Qed.
Lemma sm_minus f g : sm f -> sm g -> sm (fun e => f e - g e). Proof. apply @ex_derive_minus. Qed.
Lemma sm_mult f g : sm f -> sm g -> sm (fun e => f e * g e). Proof. intros A B. unfold sm in *. auto_derive. auto. Qed.
Lemma sm_opp f : sm f -> sm (fun e => - f e). Proof. apply @ex_derive_opp. Qed.
Lemma sm_div f g : sm f -> sm g -> g 0 <> 0 -> sm (fun e => f e / g e). Proof. intros A B C. unfold sm in *. auto_derive. auto. Qed.
Lemma sm_ext f g : (forall e, f e = g e) -> sm f -> sm g. Proof. intros H. apply @ex_derive_ext. exact H. Qed.
Lemma vsm_ext f g : (forall e, f e = g e) -> vsm f -> vsm g.
Proof.
  intros H (A & B & C). refine (conj _ (conj _ _)).
  - apply (sm_ext (fun e => vx (f e))); [intros e; rewrite H; reflexivity|exact A].
  - apply (sm_ext (fun e => vy (f e))); [intros e; rewrite H; reflexivity|exact B].
  - apply (sm_ext (fun e => vz (f e))); [intros e; rewrite H; reflexivity|exact C].
Qed.
Lemma vsm_add f g : vsm f -> vsm g -> vsm (fun e => vadd (f e) (g e)).
Proof. intros (A & B & C) (D & E & F). refine (conj _ (conj _ _)); apply sm_plus; assumption. Qed.
Lemma vsm_sub f g : vsm f -> vsm g -> vsm (fun e => vsub (f e) (g e)).
Proof. intros (A & B & C) (D & E & F). refine (conj _ (conj _ _)); apply sm_minus; assumption. Qed.
Lemma vsm_scale k f : sm k -> vsm f -> vsm (fun e => vscale (k e) (f e)).
Proof. intros K (A & B & C). refine (conj _ (conj _ _)); cbn [vscale vx vy vz]; apply sm_mult; assumption. Qed.
Lemma vsm_cross f g : vsm f -> vsm g -> vsm (fun e => cross (f e) (g e)).
Proof. intros (A & B & C) (D & E & F). refine (conj _ (conj _ _)); cbn [cross vx vy vz]; apply sm_minus; apply sm_mult; assumption. Qed.
Lemma sm_lin3 (k l m : R) f g h : sm f -> sm g -> sm h -> sm (fun e => k * f e + l * g e + m * h e).
Proof. intros (a & A) (b & B) (c & C). eexists. apply lin3; eassumption. Qed.
Lemma vsm_mvec m f : vsm f -> vsm (fun e => mvec m (f e)).
Proof. intros (A & B & C). refine (conj _ (conj _ _)); unfold mvec; cbn [vx vy vz]; apply sm_lin3; assumption. Qed.
Lemma sm_dot f g : vsm f -> vsm g -> sm (fun e => dot (f e) (g e)).
Proof.
  intros (A & B & C) (D & E & F). unfold dot. apply (sm_plus (fun e => vx (f e) * vx (g e) + vy (f e) * vy (g e))).
  - apply (sm_plus (fun e => vx (f e) * vx (g e))); apply sm_mult; assumption.
  - apply sm_mult; assumption.
Qed.
Lemma vsm_V f g h : sm f -> sm g -> sm h -> vsm (fun e => V (f e) (g e) (h e)).
Proof. intros. refine (conj _ (conj _ _)); assumption. Qed.
(** e times something *)
Lemma times_diff f : sm f -> is_derive (fun e => e * f e) 0 (f 0).
Proof.
  intros (l & H). evar_last. { apply (is_derive_mult (fun e => e) f 0 1 l); [apply @is_derive_id|exact H|]. intros; apply Rmult_comm. }
  unfold plus, mult; simpl. ring.
Qed.
Lemma vdiff_times f : vsm f -> vdiff (fun e => vscale e (f e)) (f 0).
Proof. intros (A & B & C). refine (conj _ (conj _ _)); cbn [vscale vx vy vz]; apply times_diff; assumption. Qed.
Lemma vdiff_vsm f d : vdiff f d -> vsm f. Proof. apply vsm_of. Qed.

(** turning with a changing rate *)
Definition rvq (u : R -> vec) (e : R) : quat := rvs (u e) e.
Lemma rvq_0 u : rvq u 0 = Q 1 0 0 0.
Proof. unfold rvq, rvs. apply quat_ext; simpl; field. Qed.
Lemma rvq_near u : vsm u -> near (fun e => e * e * dot (u e) (u e) < PI * PI).
Proof.
  intros (A & B & C). assert (P := PI_gt_3). apply (near_lt (fun e => e * e * dot (u e) (u e))).
  - apply (sm_mult (fun e => e * e)); [apply (sm_mult (fun e => e) (fun e => e)); apply sm_id|]. apply sm_dot; exact (conj A (conj B C)).
  - rewrite !Rmult_0_l. nra.
Qed.
Lemma rvq_eq u : vsm u -> near (fun e => rv_to_quaternion (vscale e (u e)) = rvq u e).
Proof. intros U. apply (near_imp (fun e => e * e * dot (u e) (u e) < PI * PI)); [|apply rvq_near; exact U]. intros e H. apply rv_small. exact H. Qed.
Definition qdiff (q : R -> quat) (d : quat) : Prop :=
  is_derive (fun e => qw (q e)) 0 (qw d) /\ is_derive (fun e => qx (q e)) 0 (qx d) /\ is_derive (fun e => qy (q e)) 0 (qy d) /\ is_derive (fun e => qz (q e)) 0 (qz d).
Lemma rvq_diff u : vsm u -> qdiff (rvq u) (Q 0 (vx (u 0) / 2) (vy (u 0) / 2) (vz (u 0) / 2)).
Proof.
  intros U. assert (D := sm_dot u u U U). destruct U as (A & B & C).
  set (d := fun e => dot (u e) (u e)) in *.
  assert (Mm : sm (fun e => e * e * d e * (1 / 4))).
  { clearbody d. unfold sm in *. auto_derive. repeat split; assumption. }
  set (m := fun e => e * e * d e * (1 / 4)) in *.
  assert (Sn : sm (fun e => 1 / 2 * (1 - m e / 6 * (1 - m e / 20 * (1 - m e / 42))))).
  { clearbody m. unfold sm in *. auto_derive. repeat split; assumption. }
  set (sn := fun e => 1 / 2 * (1 - m e / 6 * (1 - m e / 20 * (1 - m e / 42)))) in *.
  assert (s0 : sn 0 = 1 / 2) by (unfold sn, m; field).
  assert (L : forall f, sm f -> is_derive (fun e => sn e * (e * f e)) 0 (f 0 / 2)).
  { intros f F. apply (is_derive_ext (fun e => e * (sn e * f e))); [intros; match goal with |- @eq _ ?a ?b => change (@eq R a b) end; ring|].
    replace (f 0 / 2) with (sn 0 * f 0) by (rewrite s0; field). apply (times_diff (fun e => sn e * f e)). apply sm_mult; assumption. }
  unfold qdiff. refine (conj _ (conj _ (conj _ _))).
  - cbn [qw]. assert (K : sm (fun e => e * (d e * (1 / 4) / 2 * (1 - m e / 12 * (1 - m e / 30))))).
    { clearbody m d. unfold sm in *. auto_derive. repeat split; assumption. }
    apply times_diff in K.
    apply (is_derive_ext (fun e => 1 - e * (e * (d e * (1 / 4) / 2 * (1 - m e / 12 * (1 - m e / 30)))))).
    + intros e. unfold rvq, rvs. cbn [qw]. change (dot (u e) (u e)) with (d e). unfold m. match goal with |- @eq _ ?a ?b => change (@eq R a b) end. field.
    + evar_last. { apply @is_derive_minus; [apply @is_derive_const|exact K]. } unfold minus, plus, opp, zero; simpl. ring.
  - exact (L _ A).
  - exact (L _ B).
  - exact (L _ C).
Qed.
(** the conjugate of such a turn *)
Lemma conj_rvs u e : qconj (rvs u e) = rvs (vneg u) e.
Proof.
  unfold rvs, qconj, dot. cbv zeta. cbn [qw qx qy qz vneg vx vy vz].
  replace (- vx u * - vx u + - vy u * - vy u + - vz u * - vz u) with (vx u * vx u + vy u * vy u + vz u * vz u) by ring.
  apply quat_ext; cbn [qw qx qy qz]; ring.
Qed.
(** a quaternion that turns on both sides *)
Definition placeq (a b : R -> vec) (q : quat) (e : R) : quat := qmul (qmul (rvq a e) q) (rvq b e).
Lemma placeq_0 a b q : placeq a b q 0 = q.
Proof. unfold placeq. rewrite !rvq_0. destruct q. apply quat_ext; simpl; ring. Qed.
Definition half_pure (v : vec) : quat := Q 0 (vx v / 2) (vy v / 2) (vz v / 2).
Definition qsum (p q : quat) : quat := Q (qw p + qw q) (qx p + qx q) (qy p + qy q) (qz p + qz q).
Lemma qdiff_mul p q p0 q0 a b : qdiff p a -> qdiff q b -> p 0 = p0 -> q 0 = q0 -> qdiff (fun e => qmul (p e) (q e)) (qsum (qmul a q0) (qmul p0 b)).
Proof.
  intros (A1 & A2 & A3 & A4) (B1 & B2 & B3 & B4) <- <-.
  set (p1 := fun e : R => qw (p e)) in *. set (p2 := fun e : R => qx (p e)) in *. set (p3 := fun e : R => qy (p e)) in *. set (p4 := fun e : R => qz (p e)) in *.
  set (q1 := fun e : R => qw (q e)) in *. set (q2 := fun e : R => qx (q e)) in *. set (q3 := fun e : R => qy (q e)) in *. set (q4 := fun e : R => qz (q e)) in *.
  assert (M : forall f g df dg, is_derive f 0 df -> is_derive g 0 dg -> is_derive (fun e => f e * g e) 0 (df * g 0 + f 0 * dg)).
  { intros f g df dg F G. apply (is_derive_mult f g 0 df dg); auto. intros; apply Rmult_comm. }
  unfold qdiff, qmul, qsum. cbn [qw qx qy qz].
  assert (P4 : forall f g h k a' b' c' d', is_derive f 0 a' -> is_derive g 0 b' -> is_derive h 0 c' -> is_derive k 0 d' ->
     forall r1 r2 r3 : R, is_derive (fun e => f e + r1 * g e + r2 * h e + r3 * k e) 0 (a' + r1 * b' + r2 * c' + r3 * d')).
  { intros f g h k a' b' c' d' F G H K r1 r2 r3. apply @is_derive_plus; [apply @is_derive_plus; [apply @is_derive_plus|]|]; try exact F; apply is_derive_scal; assumption. }
  refine (conj _ (conj _ (conj _ _))).
  - eapply is_derive_ext; [|evar_last; [exact (P4 _ _ _ _ _ _ _ _ (M p1 q1 _ _ A1 B1) (M p2 q2 _ _ A2 B2) (M p3 q3 _ _ A3 B3) (M p4 q4 _ _ A4 B4) (-1) (-1) (-1))|]].
    { intros e; match goal with |- @eq _ ?a ?b => change (@eq R a b) end; unfold p1,p2,p3,p4,q1,q2,q3,q4; ring. } unfold p1,p2,p3,p4,q1,q2,q3,q4; match goal with |- @eq _ ?a ?b => change (@eq R a b) end; ring.
  - eapply is_derive_ext; [|evar_last; [exact (P4 _ _ _ _ _ _ _ _ (M p1 q2 _ _ A1 B2) (M p2 q1 _ _ A2 B1) (M p3 q4 _ _ A3 B4) (M p4 q3 _ _ A4 B3) 1 1 (-1))|]].
    { intros e; match goal with |- @eq _ ?a ?b => change (@eq R a b) end; unfold p1,p2,p3,p4,q1,q2,q3,q4; ring. } unfold p1,p2,p3,p4,q1,q2,q3,q4; match goal with |- @eq _ ?a ?b => change (@eq R a b) end; ring.
  - eapply is_derive_ext; [|evar_last; [exact (P4 _ _ _ _ _ _ _ _ (M p1 q3 _ _ A1 B3) (M p2 q4 _ _ A2 B4) (M p3 q1 _ _ A3 B1) (M p4 q2 _ _ A4 B2) (-1) 1 1)|]].
    { intros e; match goal with |- @eq _ ?a ?b => change (@eq R a b) end; unfold p1,p2,p3,p4,q1,q2,q3,q4; ring. } unfold p1,p2,p3,p4,q1,q2,q3,q4; match goal with |- @eq _ ?a ?b => change (@eq R a b) end; ring.
  - eapply is_derive_ext; [|evar_last; [exact (P4 _ _ _ _ _ _ _ _ (M p1 q4 _ _ A1 B4) (M p2 q3 _ _ A2 B3) (M p3 q2 _ _ A3 B2) (M p4 q1 _ _ A4 B1) 1 (-1) 1)|]].
    { intros e; match goal with |- @eq _ ?a ?b => change (@eq R a b) end; unfold p1,p2,p3,p4,q1,q2,q3,q4; ring. } unfold p1,p2,p3,p4,q1,q2,q3,q4; match goal with |- @eq _ ?a ?b => change (@eq R a b) end; ring.
Qed.
Lemma qdiff_const q : qdiff (fun _ => q) (Q 0 0 0 0).
Proof. refine (conj _ (conj _ (conj _ _))); apply @is_derive_const. Qed.
Lemma placeq_diff a b q : vsm a -> vsm b -> qdiff (placeq a b q) (qsum (qmul (half_pure (a 0)) q) (qmul q (half_pure (b 0)))).
Proof.
  intros A B. assert (H := qdiff_mul _ _ _ _ _ _ (qdiff_mul _ _ _ _ _ _ (rvq_diff a A) (qdiff_const q) (rvq_0 a) eq_refl) (rvq_diff b B)
     (f_equal (fun x => qmul x q) (rvq_0 a)) (rvq_0 b)). 
  unfold placeq. match type of H with qdiff ?f ?d => replace (qsum (qmul (half_pure (a 0)) q) (qmul q (half_pure (b 0)))) with d; [exact H|] end.
  unfold half_pure. destruct q as [w x y z]. generalize (a 0) (b 0). intros [a1 a2 a3] [b1 b2 b3]. apply quat_ext; cbn; field.
Qed.
