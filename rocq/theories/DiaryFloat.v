(** The place in the recording of the alignment: radians as a float. *)
From Coq Require Import Reals ZArith Lia Lra.
From Flocq Require Import Core.
From Verif Require Import FloatSpec FloatOutageProofs FloatTimeProofs FloatOutModel FloatOutProofs.
Open Scope R_scope.
#[local] Instance d24 : Prec_gt_0 24 := eq_refl.

(** Src/Alignment.cpp:151 with RecorderType.h:100-102: msg.data.pos = nav.pos, a double in radians assigned to a float *)
Definition f_align_pos (rad : R) : R := rn32 rad.

Lemma align_pos_near rad : Rabs rad <= 4 -> Rabs (f_align_pos rad - rad) <= / 8388608.
Proof. intros H. replace (/ 8388608) with (bpow radix2 (2 - 25)) by (simpl; lra). apply rn32_err; [lia|]. simpl. exact H. Qed.

Lemma rn32_nearest x f : b32 f -> Rabs (rn32 x - x) <= Rabs (f - x).
Proof.
  intros F. destruct (round_N_pt radix2 (FLT_exp (-149) 24) (fun n => negb (Z.even n)) x) as [_ H].
  exact (H f F).
Qed.
(** beyond two radians every place within 2^-23 of a float is recorded as that float *)
Lemma align_pos_coarse f x : b32 f -> 2 <= f -> 2 <= x -> Rabs (x - f) < / 8388608 -> f_align_pos x = f.
Proof.
  intros F Hf Hx D. unfold f_align_pos. pose proof (rn32_nearest x f F) as N. rewrite (Rabs_minus_sym f x) in N.
  assert (X2 : 2 <= rn32 x).
  { replace 2 with (rn32 2). apply rn32_mono, Hx. apply rn32_exact. change 2 with (bpow radix2 1). apply generic_format_FLT_bpow; [exact d24|lia]. }
  destruct (b32_mult 1 f) as [n En]; [lia|exact F|rewrite Rabs_pos_eq by lra; simpl; lra|].
  destruct (b32_mult 1 (rn32 x)) as [m Em]; [lia|apply rn32_is_float|rewrite Rabs_pos_eq by lra; simpl; lra|].
  assert (D2 : Rabs (rn32 x - f) < / 4194304).
  { replace (rn32 x - f) with ((rn32 x - x) + (x - f)) by ring. eapply Rle_lt_trans; [apply Rabs_triang|]. lra. }
  assert (m = n) as ->; [|congruence].
  rewrite Em, En in D2. change (bpow radix2 (1 - 23)) with (/ 4194304) in D2.
  rewrite <- Rmult_minus_distr_r, <- minus_IZR, Rabs_mult, (Rabs_pos_eq (/ 4194304)), <- abs_IZR in D2 by lra.
  assert (K : IZR (Z.abs (m - n)) < 1) by lra. apply lt_IZR in K. lia.
Qed.
