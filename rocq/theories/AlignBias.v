(** Levelling with configured accelerometer errors: proofs for C70_configured_errors_partial. *)
From Coq Require Import Reals ZArith List Lia Lra.
From Verif Require Import RealMath EarthModel ConvertModel ConvertSpec SmoothModel SmoothSpec InsModel FusionBase
  KalmanModel FusionModel AlignModel ApiModel ApiSpec ApiProofs ApiCases AlignExtra FusionCases AlignHeading AlignCase.
Import ListNotations.
Local Open Scope R_scope.

(** what the accelerometers of a unit with the configured bias and scale errors measure: the true specific force [f] is
    (1 - scale) * (measured - bias), axis by axis *)
Definition measures (o : option_t) (a f : vec) : Prop :=
  (1 - vx (o_as_ini o)) * (vx a - vx (o_ab_ini o)) = vx f /\
  (1 - vy (o_as_ini o)) * (vy a - vy (o_ab_ini o)) = vy f /\
  (1 - vz (o_as_ini o)) * (vz a - vz (o_ab_ini o)) = vz f.

Lemma force_measured o a f : measures o a f ->
  level_force o (Imu 0 vzero (vscale (1 / o_rate o) a)) = vscale (1 / o_rate o) f.
Proof.
  intros (A & B & C). unfold level_force. destruct f as [fx fy fz], a as [ax ay az].
  destruct (o_as_ini o) as [sx sy sz], (o_ab_ini o) as [bx by_ bz].
  unfold mvec, msub, eye, mdiag, vsub, vscale in *. simpl in *. f_equal.
  - rewrite <- A. ring.
  - rewrite <- B. ring.
  - rewrite <- C. ring.
Qed.
Lemma leveled_same o o' f f' : level_force o (Imu 0 vzero f) = level_force o' (Imu 0 vzero f') -> leveled o f = leveled o' f'.
Proof. intro E. unfold leveled. now rewrite E. Qed.

(** the option without errors *)
Lemma level_measured d j ao n d0 r p h g a hs d1 l b : api_init d j (Some ao) n = Some (d0, RGIOE_OK) -> let o := ao_rest ao in
  o_align_mode o <> ALIGN_USE_GIVEN -> 0 < o_rate o -> measures o a (rest_force r p h g) -> 0 < g ->
  Forall (fun x => i_acce x = vscale (1 / o_rate o) a) hs -> (200 < length hs)%nat ->
  api_run d0 (steps hs) = Some (d1, l) ->
  d_status d1 = RGIOE_STATUS_ATTITUDE /\
  (- (PI / 2) < r < PI / 2 -> - (PI / 2) <= p <= PI / 2 -> exists q v, api_do d1 (AResult b) = Some (d1, RPva (Some q)) /\
    p_atti q = Some v /\ vy v * (PI / 180) = p /\ vx v * (PI / 180) = asin (sin r * cos p)) /\
  (PI / 2 < r < PI -> - (PI / 2) < p < PI / 2 -> exists q v, api_do d1 (AResult b) = Some (d1, RPva (Some q)) /\
    p_atti q = Some v /\ vy v * (PI / 180) = - p).
Proof.
  intros I o Mo Hr M G S L H. assert (Hr2 : o_rate (ao_rest ao) <> 0) by (fold o; lra).
  destruct (held_status _ _ _ _ _ _ _ _ _ I Mo Hr2 S L H) as (St & _).
  destruct (held_result _ _ _ _ _ _ _ _ _ b I Mo Hr2 S L H) as (q & Eq & Ea). fold o in Ea.
  set (k := 1 / o_rate o) in *.
  assert (K : 0 < k * g).
  { apply Rmult_lt_0_compat; [apply Rdiv_lt_0_compat; lra|exact G]. }
  (* the same as for any option without errors *)
  assert (V0 : leveled o (vscale k a) = V (sin p) (- (sin r * cos p)) (- (cos r * cos p))).
  { unfold leveled. unfold k. rewrite (force_measured _ _ _ M). fold k. rewrite scaled_force, rest_force_value.
    unfold vnormalized, dot; simpl. generalize dependent (k * g). intros c K.
    assert (E : c * sin p * (c * sin p) + - (c * (sin r * cos p)) * - (c * (sin r * cos p)) + - (c * (cos r * cos p)) * - (c * (cos r * cos p)) = c * c).
    { transitivity (c * c * (sin p * sin p + sin r * cos p * (sin r * cos p) + cos r * cos p * (cos r * cos p))); [ring|].
      rewrite unit_force. ring. }
    rewrite E. destruct (Rlt_dec 0 (c * c)) as [_|N]; [|exfalso; apply N; nra].
    rewrite sqrt_square by lra. unfold vdiv; simpl. f_equal; field; lra. }
  rewrite V0 in Ea. split; [exact St|]. assert (D := deg_nonzero). unfold level_pitch, level_roll in Ea. simpl in Ea. split.
  - intros R P. assert (C1 : 0 < cos r) by (apply cos_gt_0; lra). assert (C2 : 0 <= cos p) by (apply cos_ge_0; lra).
    destruct (Rlt_dec 0 (- (cos r * cos p))) as [N|_]; [exfalso; nra|].
    exists q. eexists. cbn [api_do]. rewrite Eq. split; [reflexivity|]. split; [exact Ea|]. unfold vdiv. cbn [vx vy vz]. fold deg.
    rewrite asin_sin by lra. rewrite asin_opp. split; field; exact D.
  - intros R P. assert (C1 : cos r < 0) by (apply cos_lt_0; lra). assert (C2 : 0 < cos p) by (apply cos_gt_0; lra).
    destruct (Rlt_dec 0 (- (cos r * cos p))) as [_|N]; [|exfalso; apply N; nra].
    exists q. eexists. cbn [api_do]. rewrite Eq. split; [reflexivity|]. split; [exact Ea|]. unfold vdiv. cbn [vx vy vz]. fold deg.
    rewrite asin_sin by lra. field; exact D.
Qed.

(** an option with errors on the first two axes: bias 1/10 on x, scale 1/2 on y *)
Definition error_opt (v : R) : option_t :=
  Opt 0 v (V (1 / 10) 0 0) vzero (V 0 (1 / 2) 0) vzero vzero vzero 3600 3600 100 0 1 vzero 1 false 1 1 false 1 false 1 false 1 1 vzero vzero vzero vzero vzero false vzero vzero.
(** what such a unit measures with roll and pitch of 45 degrees *)
Definition error_force : vec := let f := rest_force (PI / 4) (PI / 4) 0 10 in V (vx f + 1 / 10) (2 * vy f) (vz f).
Lemma error_case d j v : exists d0 d1 l, api_init d j (Some (AOpt true (error_opt v))) None = Some (d0, RGIOE_OK) /\
  measures (error_opt v) error_force (rest_force (PI / 4) (PI / 4) 0 10) /\
  api_run d0 (steps (repeat (Imu 0 vzero (vscale (1 / 100) error_force)) 201)) = Some (d1, l).
Proof.
  eexists. edestruct (history_defined d j (Some (AOpt true (error_opt v))) None _
    (steps (repeat (Imu 0 vzero (vscale (1 / 100) error_force)) 201)) eq_refl) as (d1 & l & E).
  - apply steps_quiet.
  - rewrite steps_imus, repeat_length. unfold int_max. lia.
  - exists d1, l. split; [reflexivity|]. split; [|exact E]. unfold measures, error_force. simpl. repeat split; lra.
Qed.
