(** The detector against its specification. *)
From Coq Require Import Reals ZArith List Lra Lia.
From Verif Require Import RealMath SmoothModel SmoothSpec SmoothProofs.
Import ListNotations.
Open Scope R_scope.

Lemma blend_step n m x : IZR n <> 0 -> blend n m x = m + (x - m) / IZR n.
Proof. intros. unfold blend. field. assumption. Qed.

Lemma running_axis a (f : imu -> vec) (ave var : smooth -> vec)
  (Hu : forall s x t, smooth_update s x = Some t ->
     ave t = vblend (weight s) (ave s) (f x) /\ var t = vblend (weight s) (var s) (vdev (f x) (ave t))) :
  forall h s t, smooth_run s h = Some t -> (1 <= s_width s)%Z -> (0 <= up_cnt s)%Z ->
  running (s_width s) (up_cnt s) (comp a (ave s)) (comp a (var s)) (map (fun x => comp a (f x)) h)
  = (comp a (ave t), comp a (var t)).
Proof.
  induction h as [|x r IH]; simpl; intros s t H W C.
  - injection H as <-. reflexivity.
  - destruct (smooth_update s x) as [u|] eqn:E; [|discriminate].
    destruct (Hu _ _ _ E) as [A B]. destruct (update_params _ _ _ E) as (P1 & P2 & P3 & P4).
    assert (WP := weight_pos s W C).
    assert (WM : Z.min (up_cnt s + 1) (s_width s) = weight s).
    { unfold weight. destruct (Z.ltb_spec (up_cnt s + 1) (s_width s)); lia. }
    assert (NZ : IZR (weight s) <> 0) by (apply not_0_IZR; lia).
    rewrite WM. rewrite <- (IH u t H) by lia.
    assert (E1 : comp a (ave s) + (comp a (f x) - comp a (ave s)) / IZR (weight s) = comp a (ave u))
      by (rewrite A, comp_blend, blend_step by assumption; reflexivity).
    rewrite E1. rewrite P1, P4. f_equal.
    rewrite B, comp_blend, blend_step, comp_dev by assumption. simpl. rewrite Rmult_1_r. reflexivity.
Qed.

Lemma averages a th sw w h t : (1 <= w)%Z -> smooth_run (smooth_new th sw w) h = Some t ->
  comp a (i_acce (s_ave t)) = running_mean w (map (fun x => comp a (i_acce x)) h) /\
  comp a (i_gyro (s_ave t)) = running_mean w (map (fun x => comp a (i_gyro x)) h) /\
  comp a (s_var_acce t) = running_var w (map (fun x => comp a (i_acce x)) h) /\
  comp a (s_var_gyro t) = running_var w (map (fun x => comp a (i_gyro x)) h).
Proof.
  intros W H.
  assert (RA := running_axis a i_acce (fun s => i_acce (s_ave s)) s_var_acce
     ltac:(intros s x u E; destruct (update_values _ _ _ E) as (E1 & E2 & E3 & E4 & _); auto) h _ t H W ltac:(simpl; lia)).
  assert (RG := running_axis a i_gyro (fun s => i_gyro (s_ave s)) s_var_gyro
     ltac:(intros s x u E; destruct (update_values _ _ _ E) as (E1 & E2 & E3 & E4 & _); auto) h _ t H W ltac:(simpl; lia)).
  unfold running_mean, running_var. simpl in RA, RG.
  assert (Z0 : comp a vzero = 0) by (destruct a; reflexivity). rewrite Z0 in RA, RG. rewrite RA, RG. simpl. auto.
Qed.
Lemma get_std_spread th sw w h t : (1 <= w)%Z -> smooth_run (smooth_new th sw w) h = Some t -> get_std t = spread w h.
Proof.
  intros W H. unfold get_std, spread_of, spread.
  destruct (averages AX _ _ _ _ _ W H) as (_ & _ & A & _). destruct (averages AY _ _ _ _ _ W H) as (_ & _ & B & _).
  destruct (averages AZ _ _ _ _ _ W H) as (_ & _ & C & _). simpl in *. rewrite A, B, C. reflexivity.
Qed.

Lemma static_spread th sw w h t : (0 <= sw)%Z -> (1 <= w)%Z -> smooth_run (smooth_new th sw w) h = Some t ->
  (is_static t = true <->
   (sw < Z.of_nat (length h))%Z /\ forall j, (Z.of_nat j <= sw)%Z -> spread w (firstn (length h - j) h) <= th).
Proof.
  intros S W H. rewrite (static_flag _ _ _ _ _ S H). split; intros [A B]; (split; [exact A|]); intros j Hj.
  - destruct (B j Hj) as (u & U1 & U2). rewrite (get_std_spread _ _ _ _ _ W U1) in U2. exact U2.
  - specialize (B j Hj).
    rewrite <- (firstn_skipn (length h - j) h), run_app in H.
    destruct (smooth_run (smooth_new th sw w) (firstn (length h - j) h)) as [u|] eqn:E; [|discriminate].
    exists u. split; [reflexivity|]. rewrite (get_std_spread _ _ _ _ _ W E). exact B.
Qed.
Lemma spread_read_out th sw w h t : (1 <= w)%Z -> smooth_run (smooth_new th sw w) h = Some t -> get_std t = spread w h.
Proof. exact (get_std_spread th sw w h t). Qed.
Lemma clears th sw w h x t : (0 <= sw)%Z -> (1 <= w)%Z -> smooth_run (smooth_new th sw w) (h ++ [x]) = Some t ->
  th < spread w (h ++ [x]) -> is_static t = false.
Proof.
  intros S W H L. destruct (is_static t) eqn:E; [|reflexivity]. exfalso.
  apply (static_spread _ _ _ _ _ S W H) in E. destruct E as [_ E]. specialize (E 0%nat S).
  rewrite Nat.sub_0_r, firstn_all in E. lra.
Qed.

Definition still : imu := Imu 0 vzero (V 0 0 (-10)).
(** the detector as the code uses it (threshold 1e-3, 200 samples, window 30) on 201 equal samples *)
Lemma case_static : exists t, smooth_run (smooth_new (1 / 1000) 200 30) (repeat still 201) = Some t /\ is_static t = true.
Proof.
  destruct (run_defined (1 / 1000) 200 30 (repeat still 201)) as [t H].
  - rewrite repeat_length. unfold int_max. lia.
  - exists t. split; [exact H|]. apply (static_flag (1 / 1000) 200 30 (repeat still 201) t ltac:(lia) H). rewrite repeat_length. split; [reflexivity|].
    intros j Hj. assert (E : firstn (201 - j) (repeat still 201) = repeat still (201 - j)).
    { clear H. assert (G : forall n m, (n <= m)%nat -> firstn n (repeat still m) = repeat still n).
      { induction n; destruct m; simpl; intros; try reflexivity; try lia. rewrite IHn by lia. reflexivity. }
      apply G. lia. }
    rewrite E. destruct (run_defined (1 / 1000) 200 30 (repeat still (201 - j))) as [u U].
    + rewrite repeat_length. unfold int_max. lia.
    + exists u. split; [exact U|].
      destruct (constant_signal (1 / 1000) 200 30 (repeat still (201 - j)) u vzero (V 0 0 (-10)) ltac:(lia) ltac:(destruct (201 - j)%nat eqn:F; [lia|discriminate]) U) as (_ & _ & _ & _ & S).
      * intros x Hx. apply repeat_spec in Hx. subst x. split; reflexivity.
      * rewrite S. lra.
Qed.
