(** Proofs about the running mean and the static detector. *)
From Coq Require Import Reals ZArith List Lra Lia Psatz.
From Verif Require Import RealMath SmoothModel.
Import ListNotations.
Open Scope R_scope.

Lemma run_app s h g : smooth_run s (h ++ g) = match smooth_run s h with Some t => smooth_run t g | None => None end.
Proof. revert s; induction h as [|x h IH]; intros s; simpl; auto. destruct (smooth_update s x); auto. Qed.

Lemma run_snoc s h x t : smooth_run s (h ++ [x]) = Some t ->
  exists u, smooth_run s h = Some u /\ smooth_update u x = Some t.
Proof.
  rewrite run_app. destruct (smooth_run s h) as [u|]; [|discriminate]. simpl.
  intros H. exists u. split; auto. destruct (smooth_update u x); [inversion H; reflexivity|discriminate].
Qed.

(** ** parameters and counters *)
Lemma update_params s x t : smooth_update s x = Some t ->
  s_width t = s_width s /\ s_threshold t = s_threshold s /\ static_width t = static_width s /\ up_cnt t = (up_cnt s + 1)%Z.
Proof.
  unfold smooth_update. destruct (int_max <? up_cnt s + 1)%Z; [discriminate|].
  destruct (Rlt_dec _ _); [intros H; inversion H; auto|].
  destruct (int_max <? static_cnt s + 1)%Z; [discriminate|]. intros H; inversion H; auto.
Qed.
Lemma run_params s h t : smooth_run s h = Some t ->
  s_width t = s_width s /\ s_threshold t = s_threshold s /\ static_width t = static_width s /\
  up_cnt t = (up_cnt s + Z.of_nat (length h))%Z.
Proof.
  revert s; induction h as [|x h IH]; intros s; simpl.
  - intros H; inversion H. repeat split; lia.
  - destruct (smooth_update s x) as [u|] eqn:E; [|discriminate]. intros H.
    destruct (update_params _ _ _ E) as (A & B & C & D). destruct (IH _ H) as (A' & B' & C' & D').
    rewrite A', B', C', D'. repeat split; auto; lia.
Qed.

(** what one update does with the counter *)
Lemma update_static s x t : smooth_update s x = Some t ->
  (get_std t <= s_threshold s /\ static_cnt t = (static_cnt s + 1)%Z \/
   s_threshold s < get_std t /\ static_cnt t = 0%Z) /\
  is_static t = (static_width s <? static_cnt t)%Z.
Proof.
  unfold smooth_update, get_std. destruct (int_max <? up_cnt s + 1)%Z; [discriminate|].
  destruct (Rlt_dec _ _) as [h|h]; [intros H; inversion H; simpl; auto|].
  destruct (int_max <? static_cnt s + 1)%Z; [discriminate|]. intros H; inversion H; simpl. split; [left; split; [lra|auto]|auto].
Qed.

(** the first k samples of a history *)
Definition last_spreads_low (s : smooth) (h : list imu) (k : nat) : Prop :=
  forall j, (j < k)%nat -> exists t, smooth_run s (firstn (length h - j) h) = Some t /\ get_std t <= s_threshold s.

Lemma firstn_snoc_le (A : Type) (h : list A) x n : (n <= length h)%nat -> firstn n (h ++ [x]) = firstn n h.
Proof. intros. rewrite firstn_app. replace (n - length h)%nat with 0%nat by lia. simpl. apply app_nil_r. Qed.

Lemma static_count th sw w h t : smooth_run (smooth_new th sw w) h = Some t ->
  exists k, static_cnt t = Z.of_nat k /\ (k <= length h)%nat /\ last_spreads_low (smooth_new th sw w) h k /\
    ((k < length h)%nat -> exists u, smooth_run (smooth_new th sw w) (firstn (length h - k) h) = Some u /\ th < get_std u).
Proof.
  set (s0 := smooth_new th sw w). revert t. induction h as [|x h IH] using rev_ind; intros t H.
  - simpl in H. inversion H. exists 0%nat. subst t. simpl. repeat split; auto; try lia. intros j Hj; lia.
  - destruct (run_snoc _ _ _ _ H) as (u & Hu & Hx).
    destruct (IH _ Hu) as (k & K & L & Lo & Hi).
    destruct (run_params _ _ _ Hu) as (_ & Th & _). simpl in Th.
    destruct (update_static _ _ _ Hx) as [[[A B]|[A B]] _].
    + exists (S k). rewrite B, K, app_length. simpl. split; [lia|]. split; [lia|]. split.
      * intros j Hj. destruct j as [|j].
        -- exists t. rewrite Nat.sub_0_r, firstn_all. split; [exact H|]. simpl. lra.
        -- rewrite app_length; simpl. replace (length h + 1 - S j)%nat with (length h - j)%nat by lia.
           rewrite firstn_snoc_le by lia. apply Lo. lia.
      * intros Hk. replace (length h + 1 - S k)%nat with (length h - k)%nat by lia.
        rewrite firstn_snoc_le by lia. apply Hi. lia.
    + exists 0%nat. rewrite B, app_length. simpl. split; [lia|]. split; [lia|]. split; [intros j Hj; lia|].
      intros _. exists t. rewrite Nat.sub_0_r. replace (length h + 1)%nat with (length (h ++ [x])) by (rewrite app_length; reflexivity).
      rewrite firstn_all. split; [exact H|]. lra.
Qed.

(** ** C37 *)
Lemma static_flag th sw w h t : (0 <= sw)%Z -> smooth_run (smooth_new th sw w) h = Some t ->
  (is_static t = true <->
   (sw < Z.of_nat (length h))%Z /\
   forall j, (Z.of_nat j <= sw)%Z ->
     exists u, smooth_run (smooth_new th sw w) (firstn (length h - j) h) = Some u /\ get_std u <= th).
Proof.
  intros Hsw H.
  destruct (static_count _ _ _ _ _ H) as (k & K & L & Lo & Hi).
  assert (E : is_static t = (sw <? static_cnt t)%Z).
  { clear - H Hsw. induction h as [|x h _] using rev_ind.
    - simpl in H. inversion H. simpl. symmetry. apply Z.ltb_ge. lia.
    - destruct (run_snoc _ _ _ _ H) as (u & Hu & Hx).
      destruct (update_static _ _ _ Hx) as [_ ->]. destruct (run_params _ _ _ Hu) as (_ & _ & -> & _). reflexivity. }
  rewrite E, K, Z.ltb_lt. split.
  - intros Hk. split; [lia|]. intros j Hj. destruct (Lo j) as (u & A & B); [lia|]. exists u. auto.
  - intros (Hl & Hall). destruct (Z_lt_le_dec sw (Z.of_nat k)) as [|Hk]; auto. exfalso.
    destruct (Hi ltac:(lia)) as (u & A & B). destruct (Hall k ltac:(lia)) as (v & C & D).
    rewrite A in C. inversion C; subst. lra.
Qed.

Lemma one_sample_clears s x t : (0 <= static_width s)%Z -> smooth_update s x = Some t -> s_threshold s < get_std t ->
  is_static t = false.
Proof.
  intros Hs H Hg. destruct (update_static _ _ _ H) as [[[A B]|[A B]] ->]; [lra|]. rewrite B. apply Z.ltb_ge. lia.
Qed.

(** no overflow before 2^31 samples *)
Lemma run_defined th sw w h : (Z.of_nat (length h) <= int_max)%Z -> exists t, smooth_run (smooth_new th sw w) h = Some t.
Proof.
  induction h as [|x h IH] using rev_ind; intros H; [eexists; reflexivity|].
  rewrite app_length in H; simpl in H.
  destruct IH as [u Hu]; [lia|].
  rewrite run_app, Hu. simpl.
  destruct (run_params _ _ _ Hu) as (_ & _ & _ & C). simpl in C.
  destruct (static_count _ _ _ _ _ Hu) as (k & K & L & _).
  unfold smooth_update. assert (E : (int_max <? up_cnt u + 1)%Z = false) by (apply Z.ltb_ge; lia). rewrite E.
  destruct (Rlt_dec _ _); [eexists; reflexivity|].
  assert (F : (int_max <? static_cnt u + 1)%Z = false) by (apply Z.ltb_ge; lia). rewrite F. eexists; reflexivity.
Qed.
Lemma run_overflow th sw w h : (int_max < Z.of_nat (length h))%Z -> smooth_run (smooth_new th sw w) h = None.
Proof.
  intros H. destruct (smooth_run (smooth_new th sw w) h) as [t|] eqn:E; auto. exfalso.
  assert (G : forall s g t, smooth_run s g = Some t -> (up_cnt s <= int_max)%Z -> (up_cnt t <= int_max)%Z).
  { clear. intros s g; revert s; induction g as [|x g IH]; intros s t; simpl; [intros H; inversion H; auto|].
    destruct (smooth_update s x) as [u|] eqn:E; [|discriminate]. intros H _. apply (IH _ _ H).
    destruct (update_params _ _ _ E) as (_ & _ & _ & ->).
    unfold smooth_update in E. destruct (int_max <? up_cnt s + 1)%Z eqn:F; [discriminate|]. apply Z.ltb_ge in F. lia. }
  destruct (run_params _ _ _ E) as (_ & _ & _ & C). simpl in C.
  apply G in E; [lia|]. unfold smooth_new; simpl. unfold int_max. lia.
Qed.

(** ** C38: per-axis view *)
Definition axis_of (f : vec -> R) (g : imu -> vec) (x : imu) : R := f (g x).

(** the six axes *)
Inductive axis := AX | AY | AZ.
Definition comp (a : axis) (v : vec) : R := match a with AX => vx v | AY => vy v | AZ => vz v end.

Lemma comp_blend a n u v : comp a (vblend n u v) = blend n (comp a u) (comp a v).
Proof. destruct a; reflexivity. Qed.
Lemma comp_dev a u v : comp a (vdev u v) = (comp a u - comp a v) * (comp a u - comp a v).
Proof. destruct a; reflexivity. Qed.

Definition weight (s : smooth) : Z := if (up_cnt s + 1 <? s_width s)%Z then (up_cnt s + 1)%Z else s_width s.

Lemma update_values s x t : smooth_update s x = Some t ->
  i_acce (s_ave t) = vblend (weight s) (i_acce (s_ave s)) (i_acce x) /\
  i_gyro (s_ave t) = vblend (weight s) (i_gyro (s_ave s)) (i_gyro x) /\
  s_var_acce t = vblend (weight s) (s_var_acce s) (vdev (i_acce x) (i_acce (s_ave t))) /\
  s_var_gyro t = vblend (weight s) (s_var_gyro s) (vdev (i_gyro x) (i_gyro (s_ave t))) /\
  i_gpst (s_ave t) = i_gpst x.
Proof.
  unfold smooth_update. fold (weight s). destruct (int_max <? up_cnt s + 1)%Z; [discriminate|].
  destruct (Rlt_dec _ _); [intros H; inversion H; simpl; auto|].
  destruct (int_max <? static_cnt s + 1)%Z; [discriminate|]. intros H; inversion H; simpl; auto.
Qed.

Lemma weight_pos s : (1 <= s_width s)%Z -> (0 <= up_cnt s)%Z -> (1 <= weight s)%Z.
Proof. intros. unfold weight. destruct (up_cnt s + 1 <? s_width s)%Z eqn:E; [apply Z.ltb_lt in E|apply Z.ltb_ge in E]; lia. Qed.

Lemma blend_range n lo hi a x : (1 <= n)%Z -> (n = 1%Z \/ lo <= a <= hi) -> lo <= x <= hi -> lo <= blend n a x <= hi.
Proof.
  intros Hn Ha Hx. unfold blend. assert (N : 1 <= IZR n) by (apply IZR_le; exact Hn).
  destruct Ha as [->|Ha].
  - replace ((a * (1 - 1) + x) / 1) with x by field. lra.
  - split; [apply Rmult_le_reg_r with (IZR n)|apply Rmult_le_reg_r with (IZR n)]; try lra;
      unfold Rdiv; rewrite (Rmult_assoc _ (/ _)), Rinv_l by lra; nra.
Qed.

Lemma ave_range (f : imu -> vec) (get : smooth -> vec) a th sw w h t lo hi :
  (forall s x u, smooth_update s x = Some u -> get u = vblend (weight s) (get s) (f x)) ->
  (1 <= w)%Z -> h <> [] -> smooth_run (smooth_new th sw w) h = Some t ->
  (forall x, In x h -> lo <= comp a (f x) <= hi) -> lo <= comp a (get t) <= hi.
Proof.
  intros Hget Hw. revert t. induction h as [|x h IH] using rev_ind; intros t Hne H Hb; [congruence|].
  destruct (run_snoc _ _ _ _ H) as (u & Hu & Hx).
  destruct (run_params _ _ _ Hu) as (W & _ & _ & C). simpl in W, C.
  rewrite (Hget _ _ _ Hx), comp_blend. apply blend_range.
  - apply weight_pos; [rewrite W; exact Hw|lia].
  - destruct h as [|y h].
    + left. simpl in Hu. inversion Hu. unfold weight, smooth_new; simpl.
      destruct (1 <? w)%Z eqn:E; auto. apply Z.ltb_ge in E. lia.
    + right. apply IH; [discriminate|exact Hu|]. intros z Hz. apply Hb. apply in_or_app. auto.
  - apply Hb. apply in_or_app. simpl. auto.
Qed.

Lemma mean_in_range a th sw w h t lo hi : (1 <= w)%Z -> h <> [] -> smooth_run (smooth_new th sw w) h = Some t ->
  ((forall x, In x h -> lo <= comp a (i_acce x) <= hi) -> lo <= comp a (i_acce (s_ave t)) <= hi) /\
  ((forall x, In x h -> lo <= comp a (i_gyro x) <= hi) -> lo <= comp a (i_gyro (s_ave t)) <= hi).
Proof.
  intros Hw Hn H. split; intros Hb.
  - apply (ave_range i_acce (fun s => i_acce (s_ave s)) a th sw w h t lo hi); auto.
    intros s x u E. apply (update_values _ _ _ E).
  - apply (ave_range i_gyro (fun s => i_gyro (s_ave s)) a th sw w h t lo hi); auto.
    intros s x u E. apply (update_values _ _ _ E).
Qed.

Definition sum_comp (a : axis) (f : imu -> vec) (h : list imu) : R := fold_right Rplus 0 (map (fun x => comp a (f x)) h).

Lemma sum_snoc a f h x : sum_comp a f (h ++ [x]) = sum_comp a f h + comp a (f x).
Proof. unfold sum_comp. rewrite map_app, fold_right_app. simpl. induction h; simpl; [ring|]. rewrite IHh. ring. Qed.

Lemma blend_sum n (m x S : R) : 0 < IZR n -> m * (IZR n - 1) = S -> blend n m x = (S + x) / IZR n.
Proof. intros. unfold blend. rewrite H0. reflexivity. Qed.

Lemma ave_mean (f : imu -> vec) (get : smooth -> vec) a th sw w h t :
  (forall s x u, smooth_update s x = Some u -> get u = vblend (weight s) (get s) (f x)) ->
  h <> [] -> (Z.of_nat (length h) <= w)%Z -> smooth_run (smooth_new th sw w) h = Some t ->
  comp a (get t) = sum_comp a f h / INR (length h).
Proof.
  intros Hget. revert t. induction h as [|x h IH] using rev_ind; intros t Hne Hw H; [congruence|].
  rewrite app_length in *; simpl in Hw.
  destruct (run_snoc _ _ _ _ H) as (u & Hu & Hx).
  destruct (run_params _ _ _ Hu) as (W & _ & _ & C). simpl in W, C.
  rewrite (Hget _ _ _ Hx), comp_blend, sum_snoc.
  assert (Wt : weight u = Z.of_nat (length h + 1)).
  { unfold weight. rewrite C, W. destruct (Z.of_nat (length h) + 1 <? w)%Z eqn:E; [lia|]. apply Z.ltb_ge in E. lia. }
  rewrite Wt. simpl length. rewrite <- INR_IZR_INZ at 1 || idtac.
  unfold blend. rewrite <- !INR_IZR_INZ, plus_INR. simpl INR.
  destruct h as [|y h].
  - simpl. unfold sum_comp; simpl. field.
  - rewrite IH; [|discriminate|lia|exact Hu].
    assert (0 < INR (length (y :: h))) by (apply lt_0_INR; simpl; lia). field. lra.
Qed.

Lemma mean_first_window a th sw w h t : h <> [] -> (Z.of_nat (length h) <= w)%Z ->
  smooth_run (smooth_new th sw w) h = Some t ->
  comp a (i_acce (s_ave t)) = sum_comp a i_acce h / INR (length h) /\
  comp a (i_gyro (s_ave t)) = sum_comp a i_gyro h / INR (length h).
Proof.
  intros Hn Hw H. split.
  - apply (ave_mean i_acce (fun s => i_acce (s_ave s)) a th sw w h t); auto.
    intros s x u E. apply (update_values _ _ _ E).
  - apply (ave_mean i_gyro (fun s => i_gyro (s_ave s)) a th sw w h t); auto.
    intros s x u E. apply (update_values _ _ _ E).
Qed.

Lemma blend_nonneg n a x : (1 <= n)%Z -> 0 <= a -> 0 <= x -> 0 <= blend n a x.
Proof.
  intros Hn A X. unfold blend. assert (N : 1 <= IZR n) by (apply IZR_le; exact Hn).
  apply Rmult_le_pos; [nra|]. left. apply Rinv_0_lt_compat. lra.
Qed.

Lemma var_nonneg a th sw w h t : (1 <= w)%Z -> smooth_run (smooth_new th sw w) h = Some t ->
  0 <= comp a (s_var_acce t) /\ 0 <= comp a (s_var_gyro t).
Proof.
  intros Hw. revert t. induction h as [|x h IH] using rev_ind; intros t H.
  - simpl in H. inversion H. destruct a; simpl; lra.
  - destruct (run_snoc _ _ _ _ H) as (u & Hu & Hx).
    destruct (run_params _ _ _ Hu) as (W & _ & _ & C). simpl in W, C.
    destruct (IH _ Hu) as [A B]. destruct (update_values _ _ _ Hx) as (_ & _ & V1 & V2 & _).
    assert (P : (1 <= weight u)%Z) by (apply weight_pos; [rewrite W; exact Hw|lia]).
    rewrite V1, V2, !comp_blend, !comp_dev. split; apply blend_nonneg; auto; apply Rle_0_sqr.
Qed.

Lemma comp_ext u v : (forall a, comp a u = comp a v) -> u = v.
Proof. intros H. apply vec_ext; [apply (H AX)|apply (H AY)|apply (H AZ)]. Qed.

Lemma constant_signal th sw w h t g f : (1 <= w)%Z -> h <> [] -> smooth_run (smooth_new th sw w) h = Some t ->
  (forall x, In x h -> i_gyro x = g /\ i_acce x = f) ->
  i_gyro (s_ave t) = g /\ i_acce (s_ave t) = f /\ s_var_acce t = vzero /\ s_var_gyro t = vzero /\ get_std t = 0.
Proof.
  intros Hw Hne H Hc.
  assert (M : forall t' h', h' <> [] -> (forall x, In x h' -> i_gyro x = g /\ i_acce x = f) ->
              smooth_run (smooth_new th sw w) h' = Some t' -> i_gyro (s_ave t') = g /\ i_acce (s_ave t') = f).
  { intros t' h' Hn' Hc' H'. split; apply comp_ext; intros a;
      destruct (mean_in_range a th sw w h' t' (comp a g) (comp a g) Hw Hn' H') as [A B];
      destruct (mean_in_range a th sw w h' t' (comp a f) (comp a f) Hw Hn' H') as [C D].
    - apply Rle_antisym; apply B; intros x Hx; destruct (Hc' x Hx) as [-> _]; lra.
    - apply Rle_antisym; apply C; intros x Hx; destruct (Hc' x Hx) as [_ ->]; lra. }
  destruct (M t h Hne Hc H) as [G F].
  assert (Vz : s_var_acce t = vzero /\ s_var_gyro t = vzero).
  { clear G F Hne. revert t H Hc. induction h as [|x h IH] using rev_ind; intros t H Hc.
    - simpl in H. inversion H. auto.
    - destruct (M t (h ++ [x])) as [G F]; [destruct h; discriminate|exact Hc|exact H|].
      destruct (run_snoc _ _ _ _ H) as (u & Hu & Hx).
      destruct (run_params _ _ _ Hu) as (W & _ & _ & C). simpl in W, C.
      destruct (IH _ Hu) as [A B]; [intros z Hz; apply Hc, in_or_app; auto|].
      destruct (update_values _ _ _ Hx) as (_ & _ & V1 & V2 & _).
      destruct (Hc x) as [X1 X2]; [apply in_or_app; simpl; auto|].
      assert (P : (1 <= weight u)%Z) by (apply weight_pos; [rewrite W; exact Hw|lia]).
      assert (P' : 1 <= IZR (weight u)) by (apply IZR_le; exact P).
      rewrite V1, V2, G, F, X1, X2, A, B. split; apply comp_ext; intros a; rewrite comp_blend, comp_dev;
        unfold blend, vzero; destruct a; simpl; field; lra. }
  destruct Vz as [V1 V2]. repeat split; auto. unfold get_std. rewrite V1. unfold spread_of, vzero; simpl.
  rewrite !Rplus_0_l. apply sqrt_0.
Qed.
