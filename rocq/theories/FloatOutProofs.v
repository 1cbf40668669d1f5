From Coq Require Import Reals ZArith Lia Lra.
From Flocq Require Import Core Relative.
From Verif Require Import FloatSpec FloatOutageProofs FloatTimeProofs FloatOutModel.
Open Scope R_scope.
#[local] Instance r53 : Prec_gt_0 53 := eq_refl.
#[local] Instance r24 : Prec_gt_0 24 := eq_refl.

Lemma rn32_mono x y : x <= y -> rn32 x <= rn32 y.
Proof. apply round_le; [apply FLT_exp_valid; exact r24|apply valid_rnd_N]. Qed.
Lemma rn_mono x y : x <= y -> rn x <= rn y.
Proof. apply round_le; [apply FLT_exp_valid; exact r53|apply valid_rnd_N]. Qed.
Lemma rn32_exact x : b32 x -> rn32 x = x.
Proof. intro H. apply round_generic; [apply valid_rnd_N|exact H]. Qed.
Lemma rn32_is_float x : b32 (rn32 x).
Proof. apply generic_format_round; [apply FLT_exp_valid; exact r24|apply valid_rnd_N]. Qed.

Lemma rn32_err k x : (-125 <= k)%Z -> Rabs x <= bpow radix2 k -> Rabs (rn32 x - x) <= bpow radix2 (k - 25).
Proof.
  intros Hk Hx. destruct (Rle_lt_or_eq_dec _ _ Hx) as [H|H].
  - unfold rn32. eapply Rle_trans; [apply error_le_half_ulp; apply FLT_exp_valid; exact r24|].
    destruct (Req_dec x 0) as [->|Zx].
    + rewrite ulp_FLT_0 by exact r24. change (/ 2) with (bpow radix2 (-1)). rewrite <- bpow_plus. apply bpow_le. lia.
    + rewrite ulp_neq_0 by exact Zx. change (/ 2) with (bpow radix2 (-1)). rewrite <- bpow_plus. apply bpow_le.
      unfold cexp, FLT_exp. assert (mag radix2 x <= k)%Z by (apply mag_le_bpow; auto). lia.
  - rewrite rn32_exact. { replace (x - x) with 0 by ring. rewrite Rabs_R0. apply bpow_ge_0. }
    assert (F : b32 (bpow radix2 k)) by (apply generic_format_FLT_bpow; [exact r24|lia]).
    unfold Rabs in H. destruct (Rcase_abs x) as [N|N].
    + replace x with (- bpow radix2 k) by lra. apply generic_format_opp. exact F.
    + rewrite H. exact F.
Qed.

Lemma rn_rel x : x = 0 \/ bpow radix2 (-1022) <= Rabs x -> exists e, Rabs e <= / 2 ^ 53 /\ rn x = x * (1 + e).
Proof.
  intros [->|H].
  - exists 0. rewrite Rabs_R0, rn_0. split; [|ring]. left. apply Rinv_0_lt_compat. lra.
  - destruct (relative_error_N_FLT_ex radix2 (-1074) 53 eq_refl (fun x => negb (Z.even x)) x H) as [e [A B]].
    exists e. split; [|exact B]. eapply Rle_trans; [exact A|]. right.
    change (- (53) + 1)%Z with (-52)%Z. change (bpow radix2 (-52)) with (/ 4503599627370496). lra.
Qed.

Lemma round_trip deg x : bpow radix2 (-10) <= deg -> deg <= 1 -> (x = 0 \/ bpow radix2 (-500) <= Rabs x) ->
  Rabs (f_out_angle deg (f_in_angle deg x) - x) <= Rabs x * (/ 2 ^ 52 + / 2 ^ 106).
Proof.
  intros D1 D2 Hx. unfold f_out_angle, f_in_angle.
  assert (D0 : 0 < deg) by (eapply Rlt_le_trans; [apply bpow_gt_0|exact D1]).
  destruct Hx as [->|Hx].
  { rewrite Rmult_0_l, rn_0. unfold Rdiv. rewrite Rmult_0_l, rn_0. rewrite Rminus_0_r, Rabs_R0. lra. }
  assert (X0 : 0 < Rabs x) by (eapply Rlt_le_trans; [apply bpow_gt_0|exact Hx]).
  assert (P : bpow radix2 (-510) <= Rabs (x * deg)).
  { rewrite Rabs_mult, (Rabs_pos_eq deg) by lra.
    replace (bpow radix2 (-510)) with (bpow radix2 (-500) * bpow radix2 (-10)) by (rewrite <- bpow_plus; reflexivity).
    apply Rmult_le_compat; auto; apply bpow_ge_0. }
  destruct (rn_rel (x * deg)) as [e [He ->]].
  { right. eapply Rle_trans; [|exact P]. apply bpow_le. lia. }
  assert (E : - / 2 ^ 53 <= e <= / 2 ^ 53) by (apply abs_of; exact He).
  assert (V : / 2 ^ 53 = / 9007199254740992) by (f_equal; lra).
  destruct (rn_rel (x * deg * (1 + e) / deg)) as [f [Hf ->]].
  { right. replace (x * deg * (1 + e) / deg) with (x * (1 + e)) by (field; lra).
    rewrite Rabs_mult, (Rabs_pos_eq (1 + e)) by (rewrite V in E; lra).
    apply Rle_trans with (bpow radix2 (-500) * bpow radix2 (-1)).
    - rewrite <- bpow_plus. apply bpow_le. lia.
    - apply Rmult_le_compat; auto; try apply bpow_ge_0. change (bpow radix2 (-1)) with (/ 2). rewrite V in E. lra. }
  assert (G : - / 2 ^ 53 <= f <= / 2 ^ 53) by (apply abs_of; exact Hf).
  replace (x * deg * (1 + e) / deg * (1 + f) - x) with (x * (e + f + e * f)) by (field; lra).
  rewrite Rabs_mult. apply Rmult_le_compat_l; [lra|].
  eapply Rle_trans; [apply Rabs_triang|].
  assert (Rabs (e * f) <= / 2 ^ 106).
  { rewrite Rabs_mult. replace (/ 2 ^ 106) with (/ 2 ^ 53 * / 2 ^ 53).
    - apply Rmult_le_compat; auto; apply Rabs_pos.
    - rewrite <- Rinv_mult_distr by (apply pow_nonzero; lra). f_equal. rewrite <- pow_add. reflexivity. }
  assert (Rabs (e + f) <= / 2 ^ 52).
  { eapply Rle_trans; [apply Rabs_triang|]. replace (/ 2 ^ 52) with (/ 2 ^ 53 + / 2 ^ 53); [lra|].
    replace (2 ^ 53) with (2 * 2 ^ 52) by (rewrite <- tech_pow_Rmult; reflexivity).
    field. }
  lra.
Qed.
