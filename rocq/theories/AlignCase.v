(** Concrete histories of the alignment. *)
From Coq Require Import Reals ZArith List Bool Lia Lra.
From Verif Require Import RealMath EarthModel ConvertModel ConvertSpec ConvertProofs SmoothModel SmoothSpec SmoothProofs SmoothProofs2
  InsModel InsRest InsRest2 FusionBase KalmanModel FusionModel FusionCases AlignModel ApiModel ApiSpec AlignProofs ApiProofs ApiCases AlignExtra AlignHeading.
Import ListNotations.
Local Open Scope R_scope.

(** n samples of a unit at rest with roll r and pitch p, 100 a second *)
Definition tilted (r p : R) (n : nat) : list imu := repeat (Imu 0 vzero (vscale (1 / 100) (rest_force r p 0 10))) n.
Lemma tilted_all r p n v : Forall (fun x => i_acce x = vscale (1 / o_rate (case_opt v false)) (rest_force r p 0 10)) (tilted r p n).
Proof. apply Forall_forall. intros x Hx. apply repeat_spec in Hx. subst x. reflexivity. Qed.
Lemma defined d0 d j v cs : api_init d j (Some (AOpt true (case_opt v false))) None = Some (d0, RGIOE_OK) -> Forall quiet cs ->
  (Z.of_nat (length (imus cs)) <= int_max)%Z -> exists d1 l, api_run d0 cs = Some (d1, l).
Proof. intros. eapply history_defined; eauto. Qed.
Lemma fix_quiet fs : Forall quiet (fix_calls fs).
Proof. induction fs; simpl; constructor; auto. exact I. Qed.
Lemma fix_imus fs : imus (fix_calls fs) = [].
Proof. induction fs; simpl; auto. Qed.
Lemma tilted_case d j v : exists d0 d1 l, api_init d j (Some (AOpt true (case_opt v false))) None = Some (d0, RGIOE_OK) /\
  api_run d0 (steps (tilted (PI / 4) (PI / 4) 201)) = Some (d1, l) /\
  Forall (fun x => i_acce x = vscale (1 / o_rate (case_opt v false)) (rest_force (PI / 4) (PI / 4) 0 10)) (tilted (PI / 4) (PI / 4) 201).
Proof.
  eexists. edestruct (defined _ d j v (steps (tilted (PI / 4) (PI / 4) 201)) eq_refl) as (d1 & l & E).
  - apply steps_quiet.
  - rewrite steps_imus. unfold tilted. rewrite repeat_length. unfold int_max. lia.
  - exists d1, l. split; [reflexivity|]. split; [exact E|apply tilted_all].
Qed.
Lemma level_case v : level_samples (case_opt v false) 0 10 (tilted 0 0 201).
Proof.
  unfold level_samples. repeat split; try (simpl; lra).
  - apply tilted_all.
  - unfold tilted. rewrite repeat_length. lia.
Qed.
Lemma usable_lift h : -6000000 < h -> usable (lift h).
Proof.
  intros H. split; [|simpl; lra]. apply place_rates. unfold place_ok; simpl. assert (P := PI_RGT_0). lra.
Qed.
Lemma parked_lift k : parked (lift 0) (repeat (lift 0) k).
Proof. induction k; simpl; auto. split; [repeat split|]. split; [apply usable_lift; lra|exact IHk]. Qed.
Lemma parked_case d j v k : exists d0 d1 l, api_init d j (Some (AOpt true (case_opt v false))) None = Some (d0, RGIOE_OK) /\
  level_samples (case_opt v false) 0 10 (tilted 0 0 201) /\ usable (lift 0) /\ parked (lift 0) (repeat (lift 0) k) /\
  api_run d0 (steps (tilted 0 0 201) ++ fix_calls (lift 0 :: repeat (lift 0) k)) = Some (d1, l).
Proof.
  eexists. edestruct (defined _ d j v (steps (tilted 0 0 201) ++ fix_calls (lift 0 :: repeat (lift 0) k)) eq_refl) as (d1 & l & E).
  - apply Forall_app. split; [apply steps_quiet|apply fix_quiet].
  - rewrite imus_app, fix_imus, app_nil_r, steps_imus. unfold tilted. rewrite repeat_length. unfold int_max. lia.
  - exists d1, l. split; [reflexivity|]. split; [apply level_case|]. split; [apply usable_lift; lra|]. split; [apply parked_lift|exact E].
Qed.
Lemma moved_case d j v x : exists d0 d2 l, api_init d j (Some (AOpt true (case_opt v false))) None = Some (d0, RGIOE_OK) /\
  level_samples (case_opt v false) 0 10 (tilted 0 0 201) /\ usable (lift 0) /\ usable (lift 2) /\ 1 < travelled (lift 0) (lift 2) < 1000 /\
  g_gpst (lift 2) <> g_gpst (lift 0) /\
  api_run d0 (steps (tilted 0 0 201) ++ fix_calls [lift 0; lift 2] ++ [ATime (Some x)]) = Some (d2, l).
Proof.
  eexists. edestruct (defined _ d j v (steps (tilted 0 0 201) ++ fix_calls [lift 0; lift 2] ++ [ATime (Some x)]) eq_refl) as (d1 & l & E).
  - apply Forall_app. split; [apply steps_quiet|]. apply Forall_app. split; [apply fix_quiet|apply one_quiet].
  - rewrite !imus_app, fix_imus, steps_imus, app_length. unfold tilted. rewrite repeat_length. simpl. unfold int_max. lia.
  - exists d1, l. split; [reflexivity|]. split; [apply level_case|]. split; [apply usable_lift; lra|]. split; [apply usable_lift; lra|].
    split. { apply (lift_moves 1). rewrite Rabs_right; lra. } split; [simpl; lra|exact E].
Qed.
