From Coq Require Import QArith Reals List Bool Lia Lra.
From Verif Require Import MergeModel OutageModel OutageSpec SmoothModel FusionBase InsModel KalmanModel FusionModel AlignModel
  ApiModel ApiSpec ApiProofs PostModel PostSpec.
Import ListNotations.

Lemma post_run_app c t a b : post_run c t (a ++ b) = match post_run c t a with Some u => post_run c u b | None => None end.
Proof. revert t; induction a as [|s a IH]; intros t; simpl; [reflexivity|]. destruct (post_step c t s); [apply IH|reflexivity]. Qed.

Lemma time_code d x d' e : api_time d (Some x) = Some (d', e) -> e = RGIOE_OK.
Proof.
  unfold api_time. intros H. destruct (d_status d); try (now injection H as <- <-).
  - destruct (_ =? _)%Z.
    + destruct (df_time _ _ _) as [[f sm]|]; [|discriminate]. now injection H as <- <-.
    + destruct (align_imu _ _); [|discriminate]. now injection H as <- <-.
  - destruct (align_imu _ _); [|discriminate]. now injection H as <- <-.
  - destruct (align_imu _ _); [|discriminate]. destruct (_ && _); now injection H as <- <-.
  - destruct (df_time _ _ _) as [[f sm]|]; [|discriminate]. now injection H as <- <-.
Qed.
Lemma feed_call c d s : api_run d (call_of c s) = match post_feed c d s with
   Some d' => Some (d', map (fun _ => RCode RGIOE_OK) (call_of c s)) | None => None end.
Proof.
  unfold call_of, post_feed. destruct (s_type s).
  - cbn [api_run api_do map]. destruct (api_time d (Some (pc_imu_of c s))) as [[d' e]|] eqn:E; [|reflexivity].
    now rewrite (time_code _ _ _ _ E).
  - destruct (_ && _); simpl; [reflexivity|]. destruct (d_status d); reflexivity.
Qed.
Lemma run_calls_app d a b : api_run d (a ++ b) = match api_run d a with
   Some (d1, l1) => match api_run d1 b with Some (d2, l2) => Some (d2, l1 ++ l2) | None => None end | None => None end.
Proof. apply api_run_app. Qed.

Lemma post_dev c ss : forall t t', post_run c t ss = Some t' ->
  exists l, api_run (t_dev t) (calls_of c ss) = Some (t_dev t', l) /\ Forall (eq (RCode RGIOE_OK)) l.
Proof.
  induction ss as [|s ss IH]; intros t t' E; simpl in *.
  - injection E as <-. eexists; split; [reflexivity|constructor].
  - unfold post_step in E. pose proof (feed_call c (t_dev t) s) as F. destruct (post_feed c (t_dev t) s) as [d|] eqn:P; [|discriminate].
    destruct (IH _ _ E) as (l & A & B). cbn [t_dev] in A.
    rewrite run_calls_app. rewrite F, A. eexists; split; [reflexivity|].
    apply Forall_app; split; [|exact B]. apply Forall_forall. intros x H. apply in_map_iff in H. destruct H as (? & <- & _). reflexivity.
Qed.
Lemma post_none c ss : forall t, post_run c t ss = None -> api_run (t_dev t) (calls_of c ss) = None.
Proof.
  induction ss as [|s ss IH]; intros t E; simpl in *; [discriminate|].
  unfold post_step in E. rewrite run_calls_app, feed_call. destruct (post_feed c (t_dev t) s) as [d|]; [|reflexivity].
  apply IH in E. cbn [t_dev] in E. now rewrite E.
Qed.
Lemma post_lines c ss : forall t t', post_run c t ss = Some t' -> exists ls, t_lines t' = t_lines t ++ ls /\ length ls = length ss.
Proof.
  induction ss as [|s ss IH]; intros t t' E; simpl in *.
  - injection E as <-. exists []. rewrite app_nil_r. auto.
  - unfold post_step in E. destruct (post_feed c (t_dev t) s) as [d|] eqn:P; [|discriminate].
    destruct (IH _ _ E) as (ls & A & B). cbn [t_lines] in A. exists (read_result d (t_result t) :: ls).
    rewrite A, <- app_assoc. simpl. auto.
Qed.
(** the line written for sample k *)
Lemma post_line c ss t t' k : post_run c t ss = Some t' -> t_lines t = [] -> (k < length ss)%nat ->
  exists u, post_run c t (firstn (S k) ss) = Some u /\ nth_error (t_lines t') k = Some (t_result u) /\
    exists v, post_run c t (firstn k ss) = Some v /\ t_result u = read_result (t_dev u) (t_result v).
Proof.
  intros E Z K. rewrite <- (firstn_skipn (S k) ss) in E. rewrite post_run_app in E.
  destruct (post_run c t (firstn (S k) ss)) as [u|] eqn:U; [|discriminate]. exists u. split; [reflexivity|].
  destruct (nth_error ss k) as [s|] eqn:N; [|apply nth_error_None in N; lia].
  assert (firstn (S k) ss = firstn k ss ++ [s]) as FS.
  { clear -N. revert ss N; induction k as [|k IH]; intros [|x ss] N; simpl in *; try discriminate.
    - now injection N as ->.
    - now rewrite (IH _ N). }
  rewrite FS, post_run_app in U. destruct (post_run c t (firstn k ss)) as [v|] eqn:V; [|discriminate].
  simpl in U. unfold post_step in U. destruct (post_feed c (t_dev v) s) as [d|] eqn:P; [|discriminate]. injection U as <-.
  destruct (post_lines _ _ _ _ V) as (l1 & A1 & B1). destruct (post_lines _ _ _ _ E) as (l2 & A2 & B2).
  cbn [t_lines t_result t_dev] in *. rewrite Z in A1. simpl in A1. rewrite A2, A1. split; [|eauto].
  rewrite <- app_assoc. rewrite nth_error_app2; rewrite B1, firstn_length_le; try lia. rewrite Nat.sub_diag. reflexivity.
Qed.

Lemma kept_feed c d s : kept c s = true -> post_feed (no_outage c) d s = post_feed c d s.
Proof. unfold kept, post_feed. destruct (s_type s); [reflexivity|]. simpl. destruct (_ && _); [discriminate|reflexivity]. Qed.
Lemma skipped_feed c d s : kept c s = false -> post_feed c d s = Some d.
Proof. unfold kept, post_feed. destruct (s_type s); [discriminate|]. destruct (_ && _); [reflexivity|discriminate]. Qed.

Lemma result_twice d r : read_result d (read_result d r) = read_result d r.
Proof.
  destruct r as [p|]; simpl; unfold api_result, read_result; destruct (d_status d) eqn:S; unfold api_result; rewrite ?S; try reflexivity.
  all: destruct (df_output d); rewrite ?S; reflexivity.
Qed.

Lemma outage_runs c ss : forall t t' u, post_run c t ss = Some t' -> t_dev u = t_dev t -> t_result u = t_result t ->
  read_result (t_dev t) (t_result t) = t_result t ->
  exists u' ls, post_run (no_outage c) u (filter (kept c) ss) = Some u' /\ t_dev u' = t_dev t' /\ t_result u' = t_result t' /\
    t_lines t' = t_lines t ++ ls /\ length ls = length ss /\ t_lines u' = t_lines u ++ kept_lines c ss ls.
Proof.
  induction ss as [|s ss IH]; intros t t' u E D Q I; simpl in *.
  - injection E as <-. exists u, []. rewrite !app_nil_r. repeat split; auto.
  - unfold post_step in E. destruct (kept c s) eqn:K.
    + destruct (post_feed c (t_dev t) s) as [d|] eqn:P; [|discriminate].
      simpl. unfold post_step at 1. rewrite D, kept_feed, P, Q by exact K.
      destruct (IH _ _ (Post d (read_result d (t_result t)) (t_lines u ++ [read_result d (t_result t)])) E eq_refl eq_refl) as (u' & ls & A & B & B2 & C & L & F);
      [apply result_twice|].
      cbn [t_lines t_dev t_result] in *. exists u', (read_result d (t_result t) :: ls). split; [exact A|]. split; [exact B|]. split; [exact B2|].
      split; [now rewrite C, <- app_assoc|]. split; [simpl; now rewrite L|]. rewrite F. now rewrite <- app_assoc.
    + rewrite skipped_feed in E by exact K. rewrite I in E.
      destruct (IH _ _ u E D Q) as (u' & ls & A & B & B2 & C & L & F); [exact I|].
      exists u', (t_result t :: ls). cbn [t_lines] in C. split; [exact A|]. split; [exact B|]. split; [exact B2|].
      split; [now rewrite C, <- app_assoc|]. split; [simpl; now rewrite L|]. exact F.
Qed.
