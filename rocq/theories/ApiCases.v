(** Definedness, concrete histories and what the read-outs deliver. *)
From Coq Require Import Reals ZArith List Bool Lia Lra.
From Verif Require Import RealMath EarthModel ConvertModel SmoothModel SmoothSpec SmoothProofs SmoothProofs2 InsModel FusionBase
  KalmanModel FusionModel AlignModel ApiModel ApiSpec AlignProofs ApiProofs.
Import ListNotations.
Local Open Scope R_scope.

(** ** no undefined behaviour after initialisation, for fewer than 2^31 samples *)
Definition counted (s : smooth) (k : Z) : Prop := (up_cnt s <= k /\ static_cnt s <= k)%Z.
Lemma counted_update s x k : counted s k -> (0 <= k)%Z -> (k + 1 <= int_max)%Z -> exists t, smooth_update s x = Some t /\ counted t (k + 1).
Proof.
  intros [A B] K L. unfold smooth_update. assert (E : (int_max <? up_cnt s + 1)%Z = false) by (apply Z.ltb_ge; lia). rewrite E.
  destruct (Rlt_dec _ _).
  - eexists; split; [reflexivity|]. split; simpl; lia.
  - assert (F : (int_max <? static_cnt s + 1)%Z = false) by (apply Z.ltb_ge; lia). rewrite F.
    eexists; split; [reflexivity|]. split; simpl; lia.
Qed.
Lemma counted_more s k m : counted s k -> (k <= m)%Z -> counted s m.
Proof. intros [A B] L. split; lia. Qed.
Lemma align_imu_defined a x k : counted (l_smooth a) k -> (0 <= k)%Z -> (k + 1 <= int_max)%Z ->
  exists b, align_imu a x = Some b /\ counted (l_smooth b) (k + 1).
Proof.
  intros C K L. destruct (counted_update _ x _ C K L) as (t & E & Ct). unfold align_imu. rewrite E.
  destruct (l_level a); [eexists; split; [reflexivity|exact Ct]|].
  destruct (is_static t); eexists; (split; [reflexivity|exact Ct]).
Qed.
Definition dcounted (d : device) (k : Z) : Prop := counted (l_smooth (d_align d)) k /\ counted (d_det d) k.
Lemma time_defined d x k : dcounted d k -> (0 <= k)%Z -> (k + 1 <= int_max)%Z ->
  exists d' e, api_time d (Some x) = Some (d', e) /\ dcounted d' (k + 1).
Proof.
  intros [Ca Cd] K L. destruct (align_imu_defined _ x _ Ca K L) as (b & Eb & Cb). destruct (counted_update _ x _ Cd K L) as (t & Et & Ct).
  assert (Cd' := counted_more _ _ _ Cd (Z.le_succ_diag_r k)). assert (Ca' := counted_more _ _ _ Ca (Z.le_succ_diag_r k)).
  unfold api_time, df_time. rewrite Eb, Et. destruct (d_status d).
  - destruct (_ =? _)%Z; do 2 eexists; (split; [reflexivity|split; simpl; auto]).
  - do 2 eexists; (split; [reflexivity|split; simpl; auto]).
  - destruct (l_level b && l_yaw b); do 2 eexists; (split; [reflexivity|split; simpl; auto]).
  - do 2 eexists; (split; [reflexivity|split; simpl; auto]).
  - do 2 eexists; (split; [reflexivity|split; simpl; auto]).
Qed.
Lemma run_defined_from cs : forall d k, Forall quiet cs -> dcounted d k -> (0 <= k)%Z -> (k + Z.of_nat (length (imus cs)) <= int_max)%Z ->
  exists d' l, api_run d cs = Some (d', l).
Proof.
  induction cs as [|c cs IH]; intros d k F C K L; [simpl; eauto|]. inversion F; subst.
  destruct c as [j o n|[x|]|[g|]| | | | |p| ]; [contradiction| | | | | | | | | |];
    try (simpl in *; destruct (IH d k H2 C K L) as (d' & l & E); rewrite E; eauto; fail).
  - simpl imus in L. simpl length in L. destruct (time_defined d x k C K) as (d1 & e & E & C1); [lia|].
    destruct (IH d1 (k + 1)%Z H2 C1) as (d' & l & E2); [lia|lia|]. cbn [api_run api_do]. rewrite E, E2. eauto.
  - simpl imus in L. assert (G : exists d1 e, api_gnss d (Some g) = (d1, e) /\ dcounted d1 k).
    { destruct C as [C1 C2]. unfold api_gnss. destruct (d_status d); do 2 eexists; (split; [reflexivity|split; simpl; auto]).
      - unfold align_gnss; destruct (is_zero _); exact C1.
      - unfold align_gnss; destruct (is_zero _); exact C1. }
    destruct G as (d1 & e & E & C1). destruct (IH d1 k H2 C1 K L) as (d' & l & E2). cbn [api_run api_do]. rewrite E, E2. eauto.
Qed.
Lemma history_defined d j o n d0 cs : api_init d j o n = Some (d0, RGIOE_OK) -> Forall quiet cs ->
  (Z.of_nat (length (imus cs)) <= int_max)%Z -> exists d1 l, api_run d0 cs = Some (d1, l).
Proof.
  intros I F L. destruct o as [ao|]; [|discriminate]. destruct (init_ok _ _ _ _ _ I) as (_ & _ & A & _ & D & _).
  apply (run_defined_from cs d0 0); auto; [|lia]. split; [rewrite A|rewrite D]; split; simpl; lia.
Qed.

(** ** initialisation *)
Lemma init_null d j n : api_init d j None n = None.
Proof. reflexivity. Qed.
Lemma init_fault d j ao n d' : api_init d j (Some ao) n = Some (d', RGIOE_FAULT_CONFIG) <->
  o_align_mode (ao_rest ao) = ALIGN_USE_GIVEN /\ n = None /\
  d' = Dev (d_status d) (ao_rest ao) pva_zero (align_new (j_vpre j) (ao_rest ao)) (Some (fusion_new (j_ins j) (j_opt j))) fusion_smooth.
Proof.
  unfold api_init. destruct n as [p|].
  - split; [discriminate|]. intros (_ & K & _). discriminate.
  - destruct (Z.eqb_spec (o_align_mode (ao_rest ao)) ALIGN_USE_GIVEN) as [E|E]; split.
    + intros K. injection K as <-. auto.
    + intros (_ & _ & ->). reflexivity.
    + discriminate.
    + intros (K & _). contradiction.
Qed.
Lemma init_total d j ao n : exists d' e, api_init d j (Some ao) n = Some (d', e) /\ (e = RGIOE_OK \/ e = RGIOE_FAULT_CONFIG) /\
  (e = RGIOE_OK -> d_status d' = RGIOE_STATUS_INIT) /\
  (e = RGIOE_FAULT_CONFIG <-> o_align_mode (ao_rest ao) = ALIGN_USE_GIVEN /\ n = None).
Proof.
  unfold api_init. destruct n as [p|].
  - do 2 eexists. split; [reflexivity|]. repeat split; auto; try discriminate. intros (_ & K). discriminate.
  - destruct (Z.eqb_spec (o_align_mode (ao_rest ao)) ALIGN_USE_GIVEN) as [E|E]; do 2 eexists; (split; [reflexivity|]); repeat split; auto; try discriminate.
    intros (K & _). contradiction.
Qed.
Lemma init_fault_status d j ao n d' : api_init d j (Some ao) n = Some (d', RGIOE_FAULT_CONFIG) -> d_status d' = d_status d.
Proof. intros H. apply init_fault in H. destruct H as (_ & _ & ->). reflexivity. Qed.

(** ** read-outs *)
Lemma result_gated d p : d_status d <> RGIOE_STATUS_NAVIGATION -> exists q, api_result d p = Some q /\
  p_lat q = p_lat p /\ p_lon q = p_lon p /\ p_height q = p_height p /\ p_pos_std q = p_pos_std p /\
  p_vn q = p_vn p /\ p_vn_std q = p_vn_std p.
Proof. intros N. unfold api_result. destruct (d_status d); try contradiction; eexists; (split; [reflexivity|]); repeat split. Qed.
Lemma deg_nonzero : deg <> 0.
Proof. unfold deg. assert (P := PI_RGT_0). lra. Qed.
Lemma result_navigation d p s : d_status d = RGIOE_STATUS_NAVIGATION -> d_fusion d = Some s -> o_project (f_opt s) = false ->
  exists q, api_result d p = Some q /\
  p_lat q * (PI / 180) = vx (n_pos (s_nav (f_ins s))) /\ p_lon q * (PI / 180) = vy (n_pos (s_nav (f_ins s))) /\
  p_height q = vz (n_pos (s_nav (f_ins s))) /\ p_vn q = n_vn (s_nav (f_ins s)) /\
  (forall r t h, n_atti (s_nav (f_ins s)) = Eu (Fin r) (Fin t) h -> exists v, p_atti q = Some v /\
     vx v * (PI / 180) = r /\ vy v * (PI / 180) = t /\ vz v * (PI / 180) = h) /\
  p_gpst q = n_gpst (s_nav (f_ins s)).
Proof.
  intros S F P. unfold api_result, df_output. rewrite S, F. simpl. unfold output, out_place. rewrite P.
  eexists. split; [reflexivity|]. simpl. assert (D := deg_nonzero). fold deg.
  repeat split; try (field; exact D). intros r t h E. unfold out_atti. rewrite P, E. simpl.
  eexists. split; [reflexivity|]. simpl. repeat split; field; exact D.
Qed.
Lemma get_pos_std d : snd (api_pos d) = snd (api_atti d).
Proof. reflexivity. Qed.

(** ** heading before levelling *)
Definition still_call : api_call := ATime (Some still).
Definition lift (h : R) : gnss := Gnss 0 0 h (V 1 1 1) h 4.
Lemma lift_moves th a b : th < Rabs (b - a) < 1000 -> moves th (lift a) (lift b).
Proof.
  intros H. split; [simpl; lra|]. unfold travelled, lift; simpl.
  replace (0 * (PI / 180) - 0 * (PI / 180)) with 0 by ring.
  match goal with |- th < sqrt ?e < 1000 => replace e with (Rsqr (b - a)) by (unfold Rsqr; ring) end.
  rewrite sqrt_Rsqr_abs. exact H.
Qed.
Lemma still_static n : found_static (repeat still (201 + n)).
Proof.
  destruct case_static as (t & R & S). apply static_spread in R; [|lia|lia]. apply R in S. exists 201%nat.
  rewrite repeat_app. rewrite firstn_app. rewrite repeat_length, Nat.sub_diag. simpl (firstn 0 _). rewrite app_nil_r.
  rewrite firstn_all2 by (rewrite repeat_length; lia). exact S.
Qed.
Lemma imus_repeat n : imus (repeat still_call n) = repeat still n.
Proof. induction n; simpl; rewrite ?IHn; reflexivity. Qed.
Lemma fixes_repeat n : fixes (repeat still_call n) = [].
Proof. induction n; simpl; auto. Qed.
Lemma quiet_repeat n : Forall quiet (repeat still_call n).
Proof. induction n; simpl; constructor; auto. exact I. Qed.
(** the unit is lifted by two metres and then stands still *)
Definition moved_first : list api_call := [still_call; AGnss (Some (lift 0)); AGnss (Some (lift 2))].
Definition then_still : list api_call := repeat still_call 202.
Lemma moved_imus n : imus (moved_first ++ repeat still_call n) = repeat still (S n).
Proof. simpl. rewrite imus_repeat. reflexivity. Qed.
Lemma moved_fixes n : late_fixes (moved_first ++ repeat still_call n) = [lift 0; lift 2].
Proof. simpl. rewrite fixes_repeat. reflexivity. Qed.
Lemma still_split : then_still = repeat still_call 200 ++ [still_call; still_call].
Proof. unfold then_still. change 202%nat with (200 + 2)%nat. rewrite repeat_app. reflexivity. Qed.
Lemma order_not_kept d j ao n d0 : api_init d j (Some ao) n = Some (d0, RGIOE_OK) ->
  o_align_mode (ao_rest ao) <> ALIGN_USE_GIVEN -> o_align_vel (ao_rest ao) = 1 ->
  exists d1 l, api_run d0 (moved_first ++ then_still) = Some (d1, l) /\ d_status d1 = RGIOE_STATUS_NAVIGATION /\
    found_moving 1 (late_fixes moved_first) /\ ~ found_static (imus moved_first) /\ fixes then_still = [].
Proof.
  intros I Mo V.
  assert (Q1 : Forall quiet moved_first) by (repeat constructor).
  assert (Q2 : Forall quiet (moved_first ++ repeat still_call 200)) by (apply Forall_app; split; [exact Q1|apply quiet_repeat]).
  assert (Im : imus (moved_first ++ repeat still_call 200) = repeat still 201).
  { apply moved_imus. }
  assert (Mv : found_moving 1 [lift 0; lift 2]).
  { exists [], (lift 0), (lift 2), []. split; [reflexivity|]. apply lift_moves. rewrite Rabs_right; lra. }
  assert (Fx : late_fixes (moved_first ++ repeat still_call 200) = [lift 0; lift 2]).
  { apply moved_fixes. }
  destruct (history_defined _ _ _ _ _ (moved_first ++ repeat still_call 200) I Q2) as (d1 & l1 & E1).
  { rewrite Im, repeat_length. unfold int_max. lia. }
  destruct (history_defined _ _ _ _ _ (moved_first ++ then_still) I) as (d2 & l2 & E2).
  { apply Forall_app; split; [exact Q1|apply quiet_repeat]. }
  { unfold then_still. rewrite moved_imus, repeat_length. unfold int_max. lia. }
  assert (S := still_split).
  assert (E3 := E2). rewrite S, app_assoc, api_run_app, E1 in E3.
  destruct (api_run d1 [still_call; still_call]) as [[d3 l3]|] eqn:E4; [|discriminate]. injection E3 as -> _.
  exists d2, l2. split; [exact E2|]. split.
  - apply (navigation_reached _ _ _ _ _ _ _ _ still still d2 l3 I Q2 Mo E1); [rewrite Im; apply (still_static 0)| |exact E4].
    rewrite V, Fx. exact Mv.
  - split; [exact Mv|]. split; [|apply fixes_repeat].
    intros [k [K _]]. assert (length (firstn k (imus moved_first)) <= 1)%nat; [|lia].
    rewrite firstn_length. simpl. lia.
Qed.

(** ** small facts *)
Lemma gnss_keeps_status d g d' a : api_do d (AGnss g) = Some (d', a) -> d_status d' = d_status d.
Proof. cbn [api_do]. intros H. assert (G := gnss_status d g). destruct (api_gnss d g). injection H as <- _. exact G. Qed.
Lemma waits_for_sample d j o n d0 cs : api_init d j o n = Some (d0, RGIOE_OK) -> Forall quiet cs -> imus cs = [] ->
  exists l, api_run d0 cs = Some (d0, l).
Proof.
  intros I F E. destruct o as [ao|]; [|discriminate]. destruct (init_ok _ _ _ _ _ I) as (S & _). clear I.
  induction cs as [|c cs IH]; [simpl; eauto|]. inversion F; subst.
  destruct c as [j' o' n'|[x|]|[g|]| | | | |p| ]; simpl in E; try discriminate; try contradiction;
    destruct (IH H2 E) as [l El]; cbn [api_run api_do]; unfold api_time, api_gnss, api_atti, api_pos, api_vel; rewrite ?S; cbn iota beta; rewrite El; eauto.
Qed.
Lemma gnss_switch d j b1 b2 o n : api_init d j (Some (AOpt b1 o)) n = api_init d j (Some (AOpt b2 o)) n.
Proof. reflexivity. Qed.
