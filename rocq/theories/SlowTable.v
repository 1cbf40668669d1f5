(** C160, C161: rows of the transition matrix and diagonal of the process noise. *)
From Coq Require Import Reals List Bool Arith Lia Lra.
From Verif Require Import RealMath EarthModel ConvertModel SmoothModel InsModel FusionBase LayoutModel LayoutProofs SelectModel.
From Verif Require Import PropSelect.
From Verif Require WideModel.
Import ListNotations.
Open Scope R_scope.

(** the row [r] has the entry [f] on the diagonal and nothing else *)
Definition diagonal_row (t : table) (n r : nat) (f : R) : Prop := forall j, (j < n)%nat -> t r j = if Nat.eqb r j then f else 0.

Ltac outs := repeat match goal with
  | |- context [diagonal_loop ?m ?a ?n ?f ?i ?j] => rewrite (loop_out m a n f i j) by (ev; lia)
  | |- context [diagonal_loop ?m ?a ?n ?f ?i ?j] => rewrite (loop_off m a n f i j) by lia
  | |- context [assign ?m ?r ?c ?h ?w ?b ?i ?j] => rewrite (assign_out m r c h w b i j) by (ev; lia) end.

Lemma eye_entry k a b : (a < 3)%nat -> (b < 3)%nat -> entry (msub eye (mscale k eye)) a b = if Nat.eqb a b then 1 - k else 0.
Proof. destruct a as [|[|[|a]]], b as [|[|[|b]]]; simpl; intros; try lia; ring. Qed.
Lemma zero_entry a b : entry mzero a b = 0.
Proof. destruct a as [|[|[|a]]], b as [|[|[|b]]]; reflexivity. Qed.

(** biases of the accelerometers: always *)
Lemma base_bias sel i o a j : (a < 6)%nat -> (j < 15)%nat ->
  transition sel i o (9 + a)%nat j = if Nat.eqb (9 + a) j then 1 - s_dt i / (if Nat.ltb a 3 then o_gt_corr o else o_at_corr o) else 0.
Proof.
  intros Ha Hj.
  replace j with (3 * (j / 3) + j mod 3)%nat by (symmetry; apply Nat.div_mod; lia).
  assert (Hq : (j / 3 < 5)%nat) by (apply Nat.div_lt_upper_bound; lia). assert (Hm : (j mod 3 < 3)%nat) by (apply Nat.mod_upper_bound; lia).
  revert Hq Hm. generalize (j / 3)%nat as q, (j mod 3)%nat as m. intros q m Hq Hm.
  assert (E : (9 + a = 3 * (if Nat.ltb a 3 then 3 else 4) + (if Nat.ltb a 3 then a else a - 3))%nat) by (destruct (Nat.ltb_spec a 3); lia).
  rewrite E at 1. rewrite C99_base_partial by (destruct (Nat.ltb_spec a 3); lia).
  destruct (Nat.ltb_spec a 3) as [L|L].
  - destruct q as [|[|[|[|[|q]]]]]; cbn [phi_block]; rewrite ?zero_entry; try (replace (Nat.eqb (9 + a) _) with false by (symmetry; apply Nat.eqb_neq; lia); reflexivity).
    rewrite eye_entry by lia. destruct (Nat.eqb_spec a m); destruct (Nat.eqb_spec (9 + a) (3 * 3 + m)); try lia; reflexivity.
  - destruct q as [|[|[|[|[|q]]]]]; cbn [phi_block]; rewrite ?zero_entry; try (replace (Nat.eqb (9 + a) _) with false by (symmetry; apply Nat.eqb_neq; lia); reflexivity).
    rewrite eye_entry by lia. destruct (Nat.eqb_spec (a - 3) m); destruct (Nat.eqb_spec (9 + a) (3 * 4 + m)); try lia; reflexivity.
Qed.
Lemma row_ab sel i o a : (a < 3)%nat -> diagonal_row (transition sel i o) (STATE_CNT sel) (12 + a) (1 - s_dt i / o_at_corr o).
Proof.
  intros Ha j Hj. destruct (le_lt_dec 15 j) as [L|L].
  - replace (Nat.eqb (12 + a) j) with false by (symmetry; apply Nat.eqb_neq; lia). unfold transition. cbv zeta.
    destruct sel as [[] [] [] []]; cbn [gyro_sf acce_sf level_arm odo_sf]; outs; apply base_phi_out; exact L.
  - replace (12 + a)%nat with (9 + (3 + a))%nat by lia. rewrite base_bias by lia.
    replace (Nat.ltb (3 + a) 3) with false by (symmetry; apply Nat.ltb_ge; lia). reflexivity.
Qed.
Lemma row_gb sel i o a : gyro_sf sel = false -> (a < 3)%nat -> diagonal_row (transition sel i o) (STATE_CNT sel) (9 + a) (1 - s_dt i / o_gt_corr o).
Proof.
  intros G Ha j Hj. destruct (le_lt_dec 15 j) as [L|L].
  - replace (Nat.eqb (9 + a) j) with false by (symmetry; apply Nat.eqb_neq; lia). unfold transition. cbv zeta.
    destruct sel as [[] [] [] []]; try discriminate G; cbn [gyro_sf acce_sf level_arm odo_sf]; outs; apply base_phi_out; exact L.
  - rewrite base_bias by lia. replace (Nat.ltb a 3) with true by (symmetry; apply Nat.ltb_lt; lia). reflexivity.
Qed.
Lemma row_gs sel i o a : consistent sel -> gyro_sf sel = true -> (a < 3)%nat ->
  diagonal_row (transition sel i o) (STATE_CNT sel) (gyro_start sel + a) (1 - s_dt i / o_gt_corr o).
Proof.
  intros C F Ha j Hj. apply layout_iff in C. unfold transition. cbv zeta. rewrite F.
  destruct (le_lt_dec (gyro_start sel) j) as [L|L]; [destruct (le_lt_dec (gyro_start sel + 3) j) as [M|M]|].
  - replace (Nat.eqb (gyro_start sel + a) j) with false by (symmetry; apply Nat.eqb_neq; lia).
    revert L M Hj. destruct sel as [[] [] [] []]; try discriminate F; try discriminate C; cbn [gyro_sf acce_sf level_arm odo_sf]; ev; intros L M Hj; outs; apply base_phi_out; lia.
  - assert (E : exists b, (b < 3)%nat /\ j = (gyro_start sel + b)%nat) by (exists (j - gyro_start sel)%nat; lia). destruct E as (b & Hb & ->).
    replace (Nat.eqb (gyro_start sel + a) (gyro_start sel + b)) with (Nat.eqb a b) by (destruct (Nat.eqb_spec a b), (Nat.eqb_spec (gyro_start sel + a) (gyro_start sel + b)); lia).
    rewrite <- eye_entry by assumption. clear L M Hj.
    assert (K : forall m, assign (assign m (gyro_start sel) (gyro_start sel) 3 3 (of_mat (msub eye (mscale (s_dt i / o_gt_corr o) eye)))) 9 (gyro_start sel) 3 3
      (of_mat (mmul (mscale (-1) (n_Cbn (s_nav i))) (mdiag (s_gyro_pre i)))) (gyro_start sel + a)%nat (gyro_start sel + b)%nat =
      entry (msub eye (mscale (s_dt i / o_gt_corr o) eye)) a b).
    { intros m. rewrite assign_out by (unfold gyro_start, BASE_STATE; lia). rewrite assign_in by lia. unfold of_mat. rewrite !minus_plus. reflexivity. }
    destruct sel as [[] [] [] []]; try discriminate F; try discriminate C; cbn [gyro_sf acce_sf level_arm odo_sf]; outs; apply K.
  - replace (Nat.eqb (gyro_start sel + a) j) with false by (symmetry; apply Nat.eqb_neq; lia).
    revert L Hj. destruct sel as [[] [] [] []]; try discriminate F; try discriminate C; cbn [gyro_sf acce_sf level_arm odo_sf]; ev; intros L Hj; outs; apply base_phi_low; lia.
Qed.
Lemma row_as sel i o a : consistent sel -> acce_sf sel = true -> (a < 3)%nat ->
  diagonal_row (transition sel i o) (STATE_CNT sel) (acce_start sel + a) (1 - s_dt i / o_at_corr o).
Proof.
  intros C F Ha j Hj. apply layout_iff in C. unfold transition. cbv zeta. rewrite F.
  destruct (le_lt_dec (acce_start sel) j) as [L|L]; [destruct (le_lt_dec (acce_start sel + 3) j) as [M|M]|].
  - replace (Nat.eqb (acce_start sel + a) j) with false by (symmetry; apply Nat.eqb_neq; lia).
    revert L M Hj. destruct sel as [[] [] [] []]; try discriminate F; try discriminate C; cbn [gyro_sf acce_sf level_arm odo_sf]; ev; intros L M Hj; outs; apply base_phi_out; lia.
  - assert (E : exists b, (b < 3)%nat /\ j = (acce_start sel + b)%nat) by (exists (j - acce_start sel)%nat; lia). destruct E as (b & Hb & ->).
    replace (Nat.eqb (acce_start sel + a) (acce_start sel + b)) with (Nat.eqb a b) by (destruct (Nat.eqb_spec a b), (Nat.eqb_spec (acce_start sel + a) (acce_start sel + b)); lia).
    rewrite <- eye_entry by assumption. clear L M Hj.
    assert (K : forall m, assign (assign m (acce_start sel) (acce_start sel) 3 3 (of_mat (msub eye (mscale (s_dt i / o_at_corr o) eye)))) 6 (acce_start sel) 3 3
      (of_mat (mmul (n_Cbn (s_nav i)) (mdiag (s_acce_pre i)))) (acce_start sel + a)%nat (acce_start sel + b)%nat =
      entry (msub eye (mscale (s_dt i / o_at_corr o) eye)) a b).
    { intros m. rewrite assign_out by (unfold acce_start; rewrite F; unfold gyro_start, BASE_STATE; lia). rewrite assign_in by lia. unfold of_mat. rewrite !minus_plus. reflexivity. }
    destruct sel as [[] [] [] []]; try discriminate F; try discriminate C; cbn [gyro_sf acce_sf level_arm odo_sf]; outs; apply K.
  - replace (Nat.eqb (acce_start sel + a) j) with false by (symmetry; apply Nat.eqb_neq; lia).
    revert L Hj. destruct sel as [[] [] [] []]; try discriminate F; try discriminate C; cbn [gyro_sf acce_sf level_arm odo_sf]; ev; intros L Hj; outs;
      first [apply base_phi_low; lia | reflexivity].
Qed.
Lemma row_arm sel i o s : consistent sel -> level_arm sel = true /\ (arm_start sel <= s < arm_start sel + 3)%nat \/ odo_sf sel = true /\ s = odo_start sel ->
  diagonal_row (transition sel i o) (STATE_CNT sel) s (1 - s_dt i / 36000).
Proof. intros C H j Hj. exact (proj1 (C99_arm_and_odometer_partial sel i o s j C Hj H)). Qed.

(** ** process noise *)
Notation init_Q0 := WideModel.init_Q0.
Lemma Q0_base sel o x k : (k < 15)%nat -> init_Q0 sel o x k k =
  coord (Q0_diag o (div.divn k 3)) (div.modn k 3).
Proof.
  intros H. unfold WideModel.init_Q0. cbv zeta.
  assert (G : (15 <= gyro_start sel)%nat) by (unfold gyro_start, BASE_STATE; lia).
  assert (A : (15 <= acce_start sel)%nat) by (unfold acce_start; destruct (acce_sf sel); lia).
  assert (M : (15 <= arm_start sel)%nat) by (unfold arm_start; destruct (level_arm sel); lia).
  assert (O : (15 <= odo_start sel)%nat) by (unfold odo_start; destruct (odo_sf sel); lia).
  destruct (odo_sf sel), (level_arm sel), (acce_sf sel), (gyro_sf sel); rewrite ?(loop_out _ (odo_start sel)) by lia;
    rewrite ?(loop_out _ (arm_start sel)) by lia; rewrite ?(loop_out _ (acce_start sel)) by lia; rewrite ?(loop_out _ (gyro_start sel)) by lia;
    rewrite loop_at by lia; rewrite Nat.sub_0_r; reflexivity.
Qed.
Lemma Q0_bias sel o x a : (a < 6)%nat -> init_Q0 sel o x (9 + a)%nat (9 + a)%nat =
  (if Nat.ltb a 3 then 2 * coord (o_gb_std o) a * coord (o_gb_std o) a / o_gt_corr o else 2 * coord (o_ab_std o) (a - 3) * coord (o_ab_std o) (a - 3) / o_at_corr o).
Proof. intros H. rewrite Q0_base by lia. destruct a as [|[|[|[|[|[|a]]]]]]; try lia; reflexivity. Qed.
Lemma Q0_gs sel o x a : consistent sel -> gyro_sf sel = true -> (a < 3)%nat -> init_Q0 sel o x (gyro_start sel + a)%nat (gyro_start sel + a)%nat =
  2 * coord (x_gs_std x) a * coord (x_gs_std x) a / o_gt_corr o.
Proof.
  intros C F Ha. apply layout_iff in C. unfold WideModel.init_Q0. cbv zeta.
  destruct sel as [[] [] [] []]; try discriminate F; try discriminate C; cbn [gyro_sf acce_sf level_arm odo_sf]; outs; rewrite loop_at by (ev; lia); rewrite minus_plus; reflexivity.
Qed.
Lemma Q0_as sel o x a : consistent sel -> acce_sf sel = true -> (a < 3)%nat -> init_Q0 sel o x (acce_start sel + a)%nat (acce_start sel + a)%nat =
  2 * coord (x_as_std x) a * coord (x_as_std x) a / o_at_corr o.
Proof.
  intros C F Ha. apply layout_iff in C. unfold WideModel.init_Q0. cbv zeta.
  destruct sel as [[] [] [] []]; try discriminate F; try discriminate C; cbn [gyro_sf acce_sf level_arm odo_sf]; outs; rewrite loop_at by (ev; lia); rewrite minus_plus; reflexivity.
Qed.
Lemma Q0_arm sel o x a : consistent sel -> level_arm sel = true -> (a < 3)%nat -> init_Q0 sel o x (arm_start sel + a)%nat (arm_start sel + a)%nat = 0.
Proof.
  intros C F Ha. apply layout_iff in C. unfold WideModel.init_Q0. cbv zeta.
  destruct sel as [[] [] [] []]; try discriminate F; try discriminate C; cbn [gyro_sf acce_sf level_arm odo_sf]; outs; rewrite loop_at by (ev; lia); reflexivity.
Qed.
Lemma Q0_odo sel o x : consistent sel -> odo_sf sel = true -> init_Q0 sel o x (odo_start sel) (odo_start sel) = 2 * x_odo_scale_std x * x_odo_scale_std x / 3600.
Proof.
  intros C F. apply layout_iff in C. unfold WideModel.init_Q0. cbv zeta.
  destruct sel as [[] [] [] []]; try discriminate F; try discriminate C; cbn [gyro_sf acce_sf level_arm odo_sf]; outs; rewrite loop_at by (ev; lia); reflexivity.
Qed.
(** the variance of the lever arm at the beginning *)
Lemma cov_arm sel nav o x a : consistent sel -> level_arm sel = true -> (a < 3)%nat ->
  init_cov sel nav o x (arm_start sel + a)%nat (arm_start sel + a)%nat = 1 / 1000000.
Proof.
  intros C F Ha. rewrite cov_diag by (unfold STATE_CNT, arm_start, acce_start, gyro_start, arm_size; rewrite F; destruct sel as [[] [] [] []]; ev; lia).
  assert (E : init_std sel nav o x (arm_start sel + a)%nat (arm_start sel + a)%nat = 1 / 1000).
  { apply layout_iff in C. unfold init_std. cbv zeta.
    destruct sel as [[] [] [] []]; try discriminate F; try discriminate C; cbn [gyro_sf acce_sf level_arm odo_sf]; outs; rewrite loop_at by (ev; lia); reflexivity. }
  rewrite E. lra.
Qed.

(** ** the closed form *)
(** the variance [s] that the steps p -> (1 - x)^2 p + 2 x (1 - x) v leave as it is *)
Definition level (v x : R) : R := v * ((1 - x) / (1 - x / 2)).
Lemma level_fix v x : 0 < x <= 1 -> (1 - x) * (1 - x) * level v x + 2 * x * (1 - x) * v = level v x.
Proof. intros H. unfold level. field. lra. Qed.
Lemma level_bounds v x : 0 <= v -> 0 < x <= 1 -> v * (1 - x) <= level v x <= v.
Proof.
  intros Hv H. unfold level.
  assert (A : 1 - x <= (1 - x) / (1 - x / 2) <= 1).
  { split.
    - apply Rmult_le_reg_r with (1 - x / 2); [lra|]. unfold Rdiv at 2. rewrite Rmult_assoc, Rinv_l by lra. nra.
    - apply Rmult_le_reg_r with (1 - x / 2); [lra|]. unfold Rdiv at 1. rewrite Rmult_assoc, Rinv_l by lra. nra. }
  split; [apply Rmult_le_compat_l; lra|]. rewrite <- (Rmult_1_r v) at 2. apply Rmult_le_compat_l; lra.
Qed.
Lemma pow_unit a n : 0 <= a <= 1 -> 0 <= a ^ n <= 1.
Proof. intros H. induction n as [|n IH]; simpl; [lra|]. split; [apply Rmult_le_pos; lra|]. nra. Qed.
(** Bernoulli *)
Lemma pow_small x n : 0 <= x <= 1 -> (1 - x) ^ n * (1 + INR n * x) <= 1.
Proof.
  intros H. induction n as [|n IH]; [simpl; lra|]. rewrite S_INR. simpl.
  assert (P := pow_unit (1 - x) n ltac:(lra)). assert (N := pos_INR n).
  apply Rle_trans with ((1 - x) ^ n * (1 + INR n * x)); [|exact IH].
  replace ((1 - x) * (1 - x) ^ n * (1 + (INR n + 1) * x)) with ((1 - x) ^ n * ((1 - x) * (1 + (INR n + 1) * x))) by ring.
  apply Rmult_le_compat_l; [lra|]. assert (0 <= INR n * (x * x)) by (apply Rmult_le_pos; [lra|nra]). nra.
Qed.
Lemma arm_inside sel a : level_arm sel = true -> (a < 3)%nat -> (arm_start sel + a < STATE_CNT sel)%nat.
Proof. intros F H. destruct sel as [[] [] [] []]; try discriminate F; ev; lia. Qed.
Lemma odo_inside sel : odo_sf sel = true -> (odo_start sel < STATE_CNT sel)%nat.
Proof. intros F. destruct sel as [[] [] [] []]; try discriminate F; ev; lia. Qed.
