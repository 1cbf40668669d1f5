(** Proofs about the checksum model. *)
From Coq Require Import NArith List Lia Bool.
From Verif Require Import CrcModel CrcSpec.
Import ListNotations.
Open Scope N_scope.

(** ** Words *)
Lemma u32_mod x : u32 x = x mod 2^32.
Proof. unfold u32. change 0xFFFFFFFF with (N.ones 32). apply N.land_ones. Qed.

Lemma u32_lt x : u32 x < 2^32.
Proof. rewrite u32_mod. apply N.mod_lt. discriminate. Qed.

Lemma u32_id x : x < 2^32 -> u32 x = x.
Proof. intros. rewrite u32_mod. now apply N.mod_small. Qed.

Lemma u32_testbit x i : N.testbit (u32 x) i = (i <? 32) && N.testbit x i.
Proof.
  rewrite u32_mod. destruct (N.ltb_spec i 32).
  - now rewrite N.mod_pow2_bits_low.
  - now rewrite N.mod_pow2_bits_high.
Qed.

Lemma u32_lxor a b : u32 (N.lxor a b) = N.lxor (u32 a) (u32 b).
Proof.
  apply N.bits_inj. intro i. rewrite u32_testbit, !N.lxor_spec, !u32_testbit.
  destruct (i <? 32); simpl; auto.
Qed.

Lemma lxor_lt a b n : a < 2^n -> b < 2^n -> N.lxor a b < 2^n.
Proof.
  intros Ha Hb. destruct (N.eq_dec (N.lxor a b) 0) as [E|E].
  - rewrite E. pose proof (N.pow_nonzero 2 n). lia.
  - apply N.log2_lt_pow2; [lia|].
    eapply N.le_lt_trans; [apply N.log2_lxor|].
    apply N.max_lub_lt.
    + destruct (N.eq_dec a 0) as [->|]. 
      * destruct (N.eq_dec b 0) as [->|]; [now rewrite N.lxor_0_r in E|].
        apply N.log2_lt_pow2 in Hb; [|lia]. simpl. lia.
      * apply N.log2_lt_pow2; lia.
    + destruct (N.eq_dec b 0) as [->|].
      * destruct (N.eq_dec a 0) as [->|]; [now rewrite N.lxor_0_r in E|].
        apply N.log2_lt_pow2 in Ha; [|lia]. simpl. lia.
      * apply N.log2_lt_pow2; lia.
Qed.

(** ** One shift step *)
Definition top (c : N) : N := if N.testbit c 31 then CRC32_POLY else 0.

Lemma land_bit31 c : N.eqb (N.land c (N.shiftl 1 31)) 0 = negb (N.testbit c 31).
Proof.
  replace (N.shiftl 1 31) with (2^31) by reflexivity.
  destruct (N.testbit c 31) eqn:E; cbn [negb].
  - apply N.eqb_neq. intro H.
    assert (H0 : N.testbit (N.land c (2^31)) 31 = false) by (rewrite H; reflexivity).
    rewrite N.land_spec, E, N.pow2_bits_true in H0. discriminate.
  - apply N.eqb_eq. apply N.bits_inj_0. intro i. rewrite N.land_spec.
    destruct (N.eq_dec i 31) as [->|].
    + now rewrite E.
    + rewrite N.pow2_bits_false by congruence. apply andb_false_r.
Qed.

Lemma soft_bit_alt c : soft_bit c = N.lxor (u32 (N.shiftl c 1)) (top c).
Proof.
  unfold soft_bit, top. rewrite land_bit31. destruct (N.testbit c 31); simpl; auto.
  now rewrite N.lxor_0_r.
Qed.

Lemma soft_bit_lt c : soft_bit c < 2^32.
Proof.
  rewrite soft_bit_alt. apply lxor_lt; [apply u32_lt|].
  unfold top. destruct (N.testbit c 31); reflexivity.
Qed.

Lemma lxor4 a b c d : N.lxor (N.lxor a b) (N.lxor c d) = N.lxor (N.lxor a c) (N.lxor b d).
Proof.
  rewrite !N.lxor_assoc. f_equal. rewrite <- !N.lxor_assoc. f_equal. apply N.lxor_comm.
Qed.

Lemma top_lxor a b : top (N.lxor a b) = N.lxor (top a) (top b).
Proof.
  unfold top. rewrite N.lxor_spec.
  destruct (N.testbit a 31), (N.testbit b 31); simpl; auto.
Qed.

Lemma soft_bit_lxor a b : soft_bit (N.lxor a b) = N.lxor (soft_bit a) (soft_bit b).
Proof.
  rewrite !soft_bit_alt, N.shiftl_lxor, u32_lxor, top_lxor. apply lxor4.
Qed.

Lemma soft_bit_0 : soft_bit 0 = 0. Proof. reflexivity. Qed.

Lemma iter_lxor n a b :
  Nat.iter n soft_bit (N.lxor a b) = N.lxor (Nat.iter n soft_bit a) (Nat.iter n soft_bit b).
Proof. induction n; simpl; auto. rewrite IHn. apply soft_bit_lxor. Qed.

Lemma iter_0 n : Nat.iter n soft_bit 0 = 0.
Proof. induction n; simpl; auto. now rewrite IHn. Qed.

Lemma iter_lt n c : c < 2^32 -> Nat.iter n soft_bit c < 2^32.
Proof. intros. destruct n; simpl; auto. apply soft_bit_lt. Qed.

Lemma soft_bit_eq0 c : c < 2^32 -> soft_bit c = 0 -> c = 0.
Proof.
  intros Hc H.
  assert (Ht : N.testbit c 31 = false).
  { assert (H0 : N.testbit (soft_bit c) 0 = false) by (rewrite H; reflexivity).
    rewrite soft_bit_alt, N.lxor_spec, u32_testbit in H0.
    rewrite N.shiftl_spec_low in H0 by lia. unfold top in H0.
    destruct (N.testbit c 31); auto. }
  apply N.bits_inj_0. intro i.
  destruct (N.ltb_spec i 31) as [Hi|Hi].
  - assert (H1 : N.testbit (soft_bit c) (i + 1) = false) by (rewrite H; apply N.bits_0).
    rewrite soft_bit_alt, N.lxor_spec, u32_testbit in H1.
    unfold top in H1. rewrite Ht, N.bits_0, xorb_false_r in H1.
    rewrite N.shiftl_spec_high' in H1 by lia.
    replace (i + 1 - 1) with i in H1 by lia.
    destruct (N.ltb_spec (i+1) 32); [exact H1|lia].
  - destruct (N.eq_dec i 31) as [->|]; auto.
    destruct (N.eq_dec c 0) as [->|]; [apply N.bits_0|].
    apply N.bits_above_log2. apply N.log2_lt_pow2 in Hc; lia.
Qed.

Lemma iter_eq0 n c : c < 2^32 -> Nat.iter n soft_bit c = 0 -> c = 0.
Proof.
  intros Hc. induction n; simpl; auto. intro H. apply IHn.
  apply soft_bit_eq0; auto. now apply iter_lt.
Qed.

Lemma lxor_eq0 a b : N.lxor a b = 0 -> a = b.
Proof. apply N.lxor_eq. Qed.

(** ** Bytes *)
Lemma byte_cases (P : N -> bool) :
  forallb P (map N.of_nat (seq 0 256)) = true -> forall b, b < 256 -> P b = true.
Proof.
  intros H b Hb. rewrite forallb_forall in H. apply H.
  apply in_map_iff. exists (N.to_nat b). split; [apply N2Nat.id|].
  apply in_seq. lia.
Qed.

Lemma shiftl_byte_lt b : b < 256 -> N.shiftl b 24 < 2^32.
Proof. intros. rewrite N.shiftl_mul_pow2. change (2^32) with (256 * 2^24). nia. Qed.

Lemma soft_byte_split c b :
  soft_byte c b = N.lxor (Nat.iter 8 soft_bit c) (soft_byte 0 b).
Proof. unfold soft_byte. rewrite N.lxor_0_l. apply iter_lxor. Qed.

Lemma soft_byte_lt c b : soft_byte c b < 2^32.
Proof. unfold soft_byte. change 8%nat with (S 7). simpl Nat.iter. apply soft_bit_lt. Qed.

(** ** Table *)
Lemma table_entry b : b < 256 -> nth_error crc_table (N.to_nat b) = Some (soft_byte 0 b).
Proof.
  intros Hb.
  pose (P := fun b => match nth_error crc_table (N.to_nat b) with
                      | Some t => N.eqb t (soft_byte 0 b) | None => false end).
  assert (H : P b = true).
  { apply byte_cases; [|exact Hb]. vm_compute. reflexivity. }
  unfold P in H. destruct (nth_error crc_table (N.to_nat b)); [|discriminate].
  apply N.eqb_eq in H. now subst.
Qed.

Lemma gen_entry_soft b : b < 256 -> gen_entry b = soft_byte 0 b.
Proof.
  intros Hb. apply N.eqb_eq. revert b Hb.
  apply (byte_cases (fun b => N.eqb (gen_entry b) (soft_byte 0 b))).
  vm_compute. reflexivity.
Qed.

Lemma crc_table_generated :
  crc_table = map (fun i => gen_entry (N.of_nat i)) (seq 0 256).
Proof. vm_compute. reflexivity. Qed.

Lemma split_hi c : c = N.lxor (N.shiftl (N.shiftr c 24) 24) (N.land c (N.ones 24)).
Proof.
  apply N.bits_inj. intro i. rewrite N.lxor_spec, N.land_spec.
  destruct (N.ltb_spec i 24).
  - rewrite N.shiftl_spec_low by lia. rewrite N.ones_spec_low by lia.
    destruct (N.testbit c i); reflexivity.
  - rewrite N.shiftl_spec_high' by lia. rewrite N.shiftr_spec by lia.
    rewrite N.ones_spec_high by lia. replace (i - 24 + 24) with i by lia.
    destruct (N.testbit c i); reflexivity.
Qed.

Lemma iter_low n x : x < 2 ^ (32 - N.of_nat n) -> (n <= 32)%nat ->
  Nat.iter n soft_bit x = N.shiftl x (N.of_nat n).
Proof.
  intros Hx Hn. revert x Hx. induction n; intros x Hx.
  - simpl. now rewrite N.shiftl_0_r.
  - assert (Hx' : x < 2 ^ (32 - N.of_nat n)).
    { eapply N.lt_le_trans; [apply Hx|]. apply N.pow_le_mono_r; lia. }
    change (Nat.iter (S n) soft_bit x) with (soft_bit (Nat.iter n soft_bit x)).
    rewrite IHn by (auto; lia).
    assert (Hs : N.shiftl x (N.of_nat n) < 2^31).
    { rewrite N.shiftl_mul_pow2.
      replace (2^31) with (2 ^ (32 - N.of_nat (S n)) * 2 ^ N.of_nat n).
      - apply N.mul_lt_mono_pos_r; auto. pose proof (N.pow_nonzero 2 (N.of_nat n)). lia.
      - rewrite <- N.pow_add_r. f_equal. lia. }
    rewrite soft_bit_alt. unfold top.
    replace (N.testbit (N.shiftl x (N.of_nat n)) 31) with false.
    + rewrite N.lxor_0_r, N.shiftl_shiftl. rewrite u32_id.
      * f_equal. lia.
      * rewrite <- N.shiftl_shiftl, (N.shiftl_mul_pow2 _ 1). change (2^32) with (2^31 * 2). 
        change (2^1) with 2. lia.
    + symmetry. destruct (N.eq_dec (N.shiftl x (N.of_nat n)) 0) as [->|]; [apply N.bits_0|].
      apply N.bits_above_log2. apply N.log2_lt_pow2; lia.
Qed.

Lemma table_step_soft c b : c < 2^32 -> b < 256 -> table_step c b = Some (soft_byte c b).
Proof.
  intros Hc Hb. unfold table_step.
  assert (Hhi : N.shiftr c 24 < 256).
  { rewrite N.shiftr_div_pow2. apply N.div_lt_upper_bound; [discriminate|].
    change (2^24 * 256) with (2^32). auto. }
  assert (Hi : N.lxor (N.shiftr c 24) b < 256) by (apply (lxor_lt _ _ 8); auto).
  rewrite table_entry by auto. f_equal.
  unfold soft_byte. rewrite N.lxor_0_l.
  rewrite (u32_id (N.shiftl (N.lxor _ b) 24)) by now apply shiftl_byte_lt.
  rewrite (u32_id (N.shiftl b 24)) by now apply shiftl_byte_lt.
  rewrite N.shiftl_lxor, !iter_lxor.
  rewrite <- N.lxor_assoc. f_equal.
  rewrite (split_hi c) at 3. rewrite iter_lxor, N.lxor_comm. f_equal.
  rewrite iter_low; [|change (32 - N.of_nat 8) with 24; rewrite N.land_ones; apply N.mod_lt; discriminate|lia].
  apply N.bits_inj. intro i. rewrite u32_testbit.
  change (N.of_nat 8) with 8.
  destruct (N.ltb_spec i 8) as [H8|H8].
  - rewrite !N.shiftl_spec_low by lia. apply andb_false_r.
  - rewrite !N.shiftl_spec_high' by lia. rewrite N.land_spec.
    destruct (N.ltb_spec i 32).
    + rewrite N.ones_spec_low by lia. now rewrite andb_true_r.
    + rewrite N.ones_spec_high by lia. now rewrite andb_false_r.
Qed.

Lemma crc32_table_from_soft data : forall c, c < 2^32 -> bytes data ->
  crc32_table_from c data = Some (fold_left soft_byte data c).
Proof.
  induction data as [|b r IH]; intros c Hc Hd; [reflexivity|].
  cbn [crc32_table_from fold_left].
  inversion Hd; subst. rewrite table_step_soft by auto.
  apply IH; auto. apply soft_byte_lt.
Qed.

Lemma crc32_table_soft data : bytes data -> crc32_table data = Some (crc32_soft data).
Proof. intros. apply crc32_table_from_soft; auto. reflexivity. Qed.

Lemma fold_soft_lt data c : c < 2^32 -> fold_left soft_byte data c < 2^32.
Proof.
  revert c. induction data; intros; [assumption|]. cbn [fold_left]. apply IHdata. apply soft_byte_lt.
Qed.

Lemma crc32_soft_lt data : crc32_soft data < 2^32.
Proof. apply fold_soft_lt. reflexivity. Qed.

Lemma crc32_soft_app d e : crc32_soft (d ++ e) = fold_left soft_byte e (crc32_soft d).
Proof. unfold crc32_soft. apply fold_left_app. Qed.

(** ** Polynomial division *)
Lemma clmul_double q g : clmul (N.double q) g = N.shiftl (clmul q g) 1.
Proof. destruct q; reflexivity. Qed.

Lemma clmul_succ_double q g : clmul (N.succ_double q) g = N.lxor (N.shiftl (clmul q g) 1) g.
Proof. destruct q; reflexivity. Qed.

Lemma shl1_G c : c < 2^32 ->
  N.shiftl c 1 = N.lxor (if N.testbit c 31 then G else 0) (soft_bit c).
Proof.
  intros Hc. rewrite soft_bit_alt. unfold top.
  assert (Hu : u32 (N.shiftl c 1) = N.lxor (if N.testbit c 31 then 2^32 else 0) (N.shiftl c 1)).
  { apply N.bits_inj. intro i. rewrite u32_testbit, N.lxor_spec.
    destruct (N.ltb_spec i 32).
    - destruct (N.testbit c 31); [rewrite N.pow2_bits_false by lia|rewrite N.bits_0];
        now rewrite xorb_false_l.
    - cbn [andb]. destruct (N.eq_dec i 32) as [->|].
      + rewrite N.shiftl_spec_high' by lia. change (32 - 1) with 31.
        destruct (N.testbit c 31); [now rewrite N.pow2_bits_true|reflexivity].
      + rewrite N.shiftl_spec_high' by lia.
        replace (N.testbit c (i - 1)) with false.
        * destruct (N.testbit c 31); [rewrite N.pow2_bits_false by lia|rewrite N.bits_0]; auto.
        * symmetry. destruct (N.eq_dec c 0) as [->|]; [apply N.bits_0|].
          apply N.bits_above_log2. apply N.log2_lt_pow2 in Hc; lia. }
  rewrite Hu. destruct (N.testbit c 31).
  - replace G with (N.lxor (2^32) CRC32_POLY) by reflexivity.
    rewrite (N.lxor_comm (2^32) (N.shiftl c 1)).
    generalize (N.shiftl c 1) (2^32) CRC32_POLY. intros x y z.
    apply N.bits_inj. intro i. rewrite !N.lxor_spec.
    destruct (N.testbit x i), (N.testbit y i), (N.testbit z i); reflexivity.
  - now rewrite !N.lxor_0_l, N.lxor_0_r.
Qed.

Lemma div_iter n : forall p q c, c < 2^32 -> p = N.lxor (clmul q G) c ->
  exists q', N.shiftl p (N.of_nat n) = N.lxor (clmul q' G) (Nat.iter n soft_bit c).
Proof.
  induction n; intros p q c Hc Hp.
  - exists q. simpl. now rewrite N.shiftl_0_r.
  - destruct (IHn p q c Hc Hp) as [q' Hq].
    exists (if N.testbit (Nat.iter n soft_bit c) 31 then N.succ_double q' else N.double q').
    replace (N.of_nat (S n)) with (N.of_nat n + 1) by lia.
    rewrite <- N.shiftl_shiftl, Hq, N.shiftl_lxor.
    rewrite (shl1_G (Nat.iter n soft_bit c)) by now apply iter_lt.
    change (Nat.iter (S n) soft_bit c) with (soft_bit (Nat.iter n soft_bit c)).
    destruct (N.testbit (Nat.iter n soft_bit c) 31).
    + rewrite clmul_succ_double. now rewrite N.lxor_assoc.
    + rewrite clmul_double, N.lxor_0_l. reflexivity.
Qed.

Lemma crc32_soft_is_crc data : bytes data -> is_crc32 data (crc32_soft data).
Proof.
  intro Hd. split; [apply crc32_soft_lt|].
  revert Hd. induction data as [|b l IH] using rev_ind; intro Hd.
  - exists 0. reflexivity.
  - apply Forall_app in Hd. destruct Hd as [Hl Hb]. inversion Hb; subst.
    destruct (IH Hl) as [q Hq].
    destruct (div_iter 8 (N.lxor (N.lxor (clmul q G) (crc32_soft l)) (N.shiftl b 24)) q
                (N.lxor (crc32_soft l) (N.shiftl b 24))) as [q' Hq'].
    { apply lxor_lt; [apply crc32_soft_lt|now apply shiftl_byte_lt]. }
    { apply N.lxor_assoc. }
    exists q'. rewrite crc32_soft_app. simpl fold_left.
    unfold soft_byte. rewrite u32_id by now apply shiftl_byte_lt.
    rewrite <- Hq', <- Hq.
    unfold msg_poly. rewrite fold_left_app. simpl fold_left.
    rewrite app_length. simpl length.
    replace (8 * N.of_nat (length l + 1)) with (8 * N.of_nat (length l) + 8) by lia.
    rewrite !N.shiftl_lxor, !N.shiftl_shiftl.
    change (N.of_nat 8) with 8. change (24 + 8) with 32. change (8 + 32) with (32 + 8).
    rewrite !N.lxor_assoc. f_equal. apply N.lxor_comm.
Qed.

(** the specification determines the value *)
Lemma clmul_log2 q : 0 < q -> N.log2 (clmul q G) = N.log2 q + 32.
Proof.
  destruct q as [|p]; [lia|]. intros _. simpl clmul.
  induction p as [p IH|p IH|]; [| |reflexivity].
  - simpl clmul_pos.
    assert (Hpos : 0 < clmul_pos p G).
    { destruct (N.eq_dec (clmul_pos p G) 0) as [E|]; [|lia]. rewrite E in IH. simpl in IH. lia. }
    assert (Hl : N.log2 (N.shiftl (clmul_pos p G) 1) = N.log2 (Npos p) + 33)
      by (rewrite N.log2_shiftl by lia; lia).
    assert (Hr : N.log2 (Npos p~1) = N.log2 (Npos p) + 1).
    { replace (Npos p~1) with (2 * Npos p + 1) by lia. rewrite N.log2_succ_double; lia. }
    rewrite Hr.
    apply N.log2_bits_unique.
    + rewrite N.lxor_spec.
      replace (N.log2 (Npos p) + 1 + 32) with (N.log2 (N.shiftl (clmul_pos p G) 1)) at 1 by lia.
      rewrite N.bit_log2.
      * rewrite (N.bits_above_log2 G); auto. change (N.log2 G) with 32. lia.
      * rewrite N.shiftl_mul_pow2. change (2^1) with 2. lia.
    + intros m Hm. rewrite N.lxor_spec, !N.bits_above_log2; auto.
      * change (N.log2 G) with 32. lia.
      * lia.
  - simpl clmul_pos.
    assert (Hpos : 0 < clmul_pos p G).
    { destruct (N.eq_dec (clmul_pos p G) 0) as [E|]; [|lia]. rewrite E in IH. simpl in IH. lia. }
    rewrite N.log2_shiftl by lia.
    replace (Npos p~0) with (2 * Npos p) by lia. rewrite N.log2_double; lia.
Qed.

Lemma clmul_pos_shiftl_lxor : forall p q g,
  clmul (N.lxor (Npos p) (Npos q)) g = N.lxor (clmul_pos p g) (clmul_pos q g).
Proof.
  intros p q g. revert q.
  assert (D : forall n, clmul (N.double n) g = N.shiftl (clmul n g) 1) by (intro; apply clmul_double).
  assert (SD : forall n, clmul (N.succ_double n) g = N.lxor (N.shiftl (clmul n g) 1) g)
    by (intro; apply clmul_succ_double).
  induction p as [p IH|p IH|]; intros [q|q|]; simpl N.lxor; simpl clmul_pos.
  - change (Pos.lxor p~1 q~1) with (Pos.lxor p~1 q~1). simpl Pos.lxor.
    change (Pos.Ndouble (Pos.lxor p q)) with (N.double (N.lxor (Npos p) (Npos q))).
    rewrite D, IH, N.shiftl_lxor.
    rewrite <- lxor4. rewrite N.lxor_nilpotent, N.lxor_0_r. reflexivity.
  - simpl Pos.lxor.
    change (Pos.Nsucc_double (Pos.lxor p q)) with (N.succ_double (N.lxor (Npos p) (Npos q))).
    rewrite SD, IH, N.shiftl_lxor.
    rewrite !N.lxor_assoc. f_equal. apply N.lxor_comm.
  - simpl. rewrite N.lxor_assoc, N.lxor_nilpotent, N.lxor_0_r. reflexivity.
  - simpl Pos.lxor.
    change (Pos.Nsucc_double (Pos.lxor p q)) with (N.succ_double (N.lxor (Npos p) (Npos q))).
    rewrite SD, IH, N.shiftl_lxor, N.lxor_assoc. reflexivity.
  - simpl Pos.lxor.
    change (Pos.Ndouble (Pos.lxor p q)) with (N.double (N.lxor (Npos p) (Npos q))).
    rewrite D, IH, N.shiftl_lxor. reflexivity.
  - simpl. reflexivity.
  - simpl. rewrite (N.lxor_comm g), N.lxor_assoc, N.lxor_nilpotent, N.lxor_0_r. reflexivity.
  - simpl. apply N.lxor_comm.
  - simpl. now rewrite N.lxor_nilpotent.
Qed.

Lemma clmul_lxor p q g : clmul (N.lxor p q) g = N.lxor (clmul p g) (clmul q g).
Proof.
  destruct p as [|p], q as [|q].
  - reflexivity.
  - reflexivity.
  - simpl. now rewrite N.lxor_0_r.
  - apply clmul_pos_shiftl_lxor.
Qed.

Lemma is_crc32_unique data c c' : is_crc32 data c -> is_crc32 data c' -> c = c'.
Proof.
  intros [Hc [q Hq]] [Hc' [q' Hq']].
  rewrite Hq in Hq'.
  assert (E : clmul (N.lxor q q') G = N.lxor c c').
  { rewrite clmul_lxor.
    assert (X : N.lxor (N.lxor (clmul q G) c) (N.lxor (clmul q' G) c') = 0)
      by (rewrite Hq'; apply N.lxor_nilpotent).
    rewrite lxor4 in X. now apply lxor_eq0. }
  assert (H : N.lxor c c' < 2^32) by now apply lxor_lt.
  destruct (N.eq_dec (N.lxor q q') 0) as [Z|Z].
  - rewrite Z in E. simpl in E. symmetry in E. now apply lxor_eq0.
  - exfalso. assert (0 < N.lxor q q') by lia.
    pose proof (clmul_log2 _ H0) as L. rewrite E in L.
    destruct (N.eq_dec (N.lxor c c') 0) as [Z'|Z'].
    + rewrite Z' in L. simpl in L. lia.
    + apply N.log2_lt_pow2 in H; lia.
Qed.

(** ** Residue *)
Lemma fold_be32 c w : c < 2^32 -> w < 2^32 ->
  fold_left soft_byte (be32 w) c = Nat.iter 32 soft_bit (N.lxor c w).
Proof.
  intros Hc Hw. unfold be32.
  pose (b3 := w / 2^24). pose (b2 := (w / 2^16) mod 256).
  pose (b1 := (w / 2^8) mod 256). pose (b0 := w mod 256).
  assert (Hb3 : b3 < 256).
  { apply N.div_lt_upper_bound; [discriminate|]. exact Hw. }
  assert (Hb2 : b2 < 256) by (apply N.mod_lt; discriminate).
  assert (Hb1 : b1 < 256) by (apply N.mod_lt; discriminate).
  assert (Hb0 : b0 < 256) by (apply N.mod_lt; discriminate).
  fold b3 b2 b1 b0.
  assert (Hsplit : w = N.lxor (N.shiftl b3 24) (N.lxor (N.shiftl b2 16) (N.lxor (N.shiftl b1 8) b0))).
  { apply N.bits_inj. intro i. rewrite !N.lxor_spec.
    assert (B2 : forall i, N.testbit b2 i = (i <? 8) && N.testbit w (i + 16)).
    { intro j. unfold b2. change 256 with (2^8). destruct (N.ltb_spec j 8).
      - now rewrite N.mod_pow2_bits_low, N.div_pow2_bits by auto.
      - now rewrite N.mod_pow2_bits_high. }
    assert (B1 : forall i, N.testbit b1 i = (i <? 8) && N.testbit w (i + 8)).
    { intro j. unfold b1. change 256 with (2^8). destruct (N.ltb_spec j 8).
      - now rewrite N.mod_pow2_bits_low, N.div_pow2_bits by auto.
      - now rewrite N.mod_pow2_bits_high. }
    assert (B0 : forall i, N.testbit b0 i = (i <? 8) && N.testbit w i).
    { intro j. unfold b0. change 256 with (2^8). destruct (N.ltb_spec j 8).
      - now rewrite N.mod_pow2_bits_low by auto.
      - now rewrite N.mod_pow2_bits_high. }
    assert (B3 : forall i, N.testbit b3 i = N.testbit w (i + 24)).
    { intro j. unfold b3. now rewrite N.div_pow2_bits. }
    assert (S3 : N.testbit (N.shiftl b3 24) i = (24 <=? i) && N.testbit w i).
    { destruct (N.leb_spec 24 i).
      - rewrite N.shiftl_spec_high', B3 by lia. simpl. f_equal. lia.
      - now rewrite N.shiftl_spec_low. }
    assert (S2 : N.testbit (N.shiftl b2 16) i = (16 <=? i) && (i <? 24) && N.testbit w i).
    { destruct (N.leb_spec 16 i).
      - rewrite N.shiftl_spec_high', B2 by lia.
        destruct (N.ltb_spec (i-16) 8), (N.ltb_spec i 24); simpl; auto; try lia.
        f_equal. lia.
      - now rewrite N.shiftl_spec_low. }
    assert (S1 : N.testbit (N.shiftl b1 8) i = (8 <=? i) && (i <? 16) && N.testbit w i).
    { destruct (N.leb_spec 8 i).
      - rewrite N.shiftl_spec_high', B1 by lia.
        destruct (N.ltb_spec (i-8) 8), (N.ltb_spec i 16); simpl; auto; try lia.
        f_equal. lia.
      - now rewrite N.shiftl_spec_low. }
    rewrite S3, S2, S1, B0.
    destruct (N.leb_spec 24 i), (N.leb_spec 16 i), (N.ltb_spec i 24), (N.leb_spec 8 i),
      (N.ltb_spec i 16), (N.ltb_spec i 8); simpl; try lia;
    destruct (N.testbit w i); reflexivity. }
  clearbody b3 b2 b1 b0. simpl fold_left. unfold soft_byte at 1 2 3 4.
  rewrite !u32_id by now apply shiftl_byte_lt.
  rewrite Hsplit. rewrite <- N.lxor_assoc.
  change 32%nat with (8 + (8 + (8 + 8)))%nat.
  assert (IT : forall n m x, Nat.iter (n + m) soft_bit x = Nat.iter n soft_bit (Nat.iter m soft_bit x)).
  { induction n; simpl; intros; auto. now rewrite IHn. }
  rewrite !IT.
  rewrite (iter_lxor 8 (N.lxor c (N.shiftl b3 24))).
  assert (E16 : forall x y, x < 256 -> y < 2^16 ->
     Nat.iter 8 soft_bit (N.lxor (N.shiftl x 16) y) = N.lxor (N.shiftl x 24) (N.shiftl y 8)).
  { intros x y Hx Hy. rewrite iter_lxor. rewrite !iter_low; try lia.
    - rewrite N.shiftl_shiftl. reflexivity.
    - eapply N.lt_le_trans; [apply Hy|]. discriminate.
    - rewrite N.shiftl_mul_pow2. change (2 ^ (32 - N.of_nat 8)) with (256 * 2^16). nia. }
  assert (L16 : N.lxor (N.shiftl b1 8) b0 < 2^16).
  { apply lxor_lt; [rewrite N.shiftl_mul_pow2; change (2^16) with (256 * 2^8); nia|].
    change (2^16) with 65536. lia. }
  rewrite E16 by auto.
  assert (L0 : N.shiftl b0 8 < 2^16).
  { rewrite N.shiftl_mul_pow2. change (2^16) with (256 * 2^8). nia. }
  rewrite <- (N.lxor_assoc _ (N.shiftl b2 24)).
  rewrite (iter_lxor 8 (N.lxor (Nat.iter 8 soft_bit (N.lxor c (N.shiftl b3 24))) (N.shiftl b2 24))).
  rewrite N.shiftl_lxor, N.shiftl_shiftl. change (8 + 8) with 16.
  rewrite E16 by auto.
  set (X := Nat.iter 8 soft_bit (N.lxor (Nat.iter 8 soft_bit _) (N.shiftl b2 24))).
  rewrite <- (N.lxor_assoc X). rewrite (iter_lxor 8 (N.lxor X (N.shiftl b1 24))).
  rewrite (iter_low 8 (N.shiftl (N.shiftl b0 8) 8)); [|change (32 - N.of_nat 8) with 24|lia].
  - rewrite !N.shiftl_shiftl. reflexivity.
  - rewrite N.shiftl_mul_pow2. change (2 ^ 24) with (2^16 * 2^8). nia.
Qed.

Lemma some_inj {A} (a b : A) : Some a = Some b -> a = b.
Proof. congruence. Qed.

Lemma residue_iff d w : bytes d -> w < 2^32 ->
  (crc32_table (d ++ be32 w) = Some 0 <-> crc32_table d = Some w).
Proof.
  intros Hd Hw.
  assert (Hb : bytes (be32 w)).
  { unfold be32. repeat constructor.
    - apply N.div_lt_upper_bound; [discriminate|]. exact Hw.
    - apply N.mod_lt; discriminate.
    - apply N.mod_lt; discriminate.
    - apply N.mod_lt; discriminate. }
  rewrite !crc32_table_soft by (auto; now apply Forall_app).
  rewrite crc32_soft_app, fold_be32 by (auto; apply crc32_soft_lt).
  split; intro H; apply some_inj in H; f_equal.
  - apply iter_eq0 in H; [|apply lxor_lt; auto; apply crc32_soft_lt].
    now apply lxor_eq0.
  - rewrite H, N.lxor_nilpotent. apply iter_0.
Qed.

(** ** Burst errors *)
Definition bit31 (b : bool) : N := if b then 2^31 else 0.
Definition feed (c : N) (b : bool) : N := soft_bit (N.lxor c (bit31 b)).
Definition feeds (bs : list bool) (c : N) : N := fold_left feed bs c.

Lemma feed_lt c b : feed c b < 2^32. Proof. apply soft_bit_lt. Qed.

Lemma bit31_lt b : bit31 b < 2^32.
Proof. destruct b; reflexivity. Qed.

Lemma bit31_xor a b : bit31 (xorb a b) = N.lxor (bit31 a) (bit31 b).
Proof. destruct a, b; reflexivity. Qed.

Lemma feeds_lt bs : forall c, c < 2^32 -> feeds bs c < 2^32.
Proof.
  induction bs; intros; [assumption|]. apply (IHbs (feed c a)). apply feed_lt.
Qed.

(** linearity in state and input *)
Lemma feeds_lxor bs : forall bs' c c', length bs = length bs' ->
  feeds (map (fun p => xorb (fst p) (snd p)) (combine bs bs')) (N.lxor c c')
  = N.lxor (feeds bs c) (feeds bs' c').
Proof.
  induction bs as [|b bs IH]; intros [|b' bs'] c c' H; try discriminate H; [reflexivity|].
  change (feeds (b :: bs) c) with (feeds bs (feed c b)).
  change (feeds (b' :: bs') c') with (feeds bs' (feed c' b')).
  rewrite <- IH by (injection H; auto).
  cbn [combine map]. cbn [fst snd].
  match goal with |- feeds (?h :: ?t) ?x = _ => change (feeds (h :: t) x) with (feeds t (feed x h)) end.
  f_equal. unfold feed. rewrite <- soft_bit_lxor. f_equal. rewrite bit31_xor. apply lxor4.
Qed.

Lemma feeds_false n c : feeds (repeat false n) c = Nat.iter n soft_bit c.
Proof.
  revert c. induction n; intro c; [reflexivity|].
  change (feeds (repeat false (S n)) c) with (feeds (repeat false n) (feed c false)).
  rewrite IHn. unfold feed. simpl bit31. rewrite N.lxor_0_r.
  clear. induction n; [reflexivity|].
  change (Nat.iter (S n) soft_bit (soft_bit c)) with (soft_bit (Nat.iter n soft_bit (soft_bit c))).
  now rewrite IHn.
Qed.

(** the window as a word with its first bit at position [k] *)
Fixpoint word_at (bs : list bool) (k : N) : N :=
  match bs with
  | [] => 0
  | b :: r => N.lxor (if b then 2^k else 0) (word_at r (k - 1))
  end.

Lemma word_at_lt bs : forall k, N.of_nat (length bs) <= k + 1 -> word_at bs k < 2^(k+1).
Proof.
  induction bs as [|b r IH]; intros k H.
  - simpl. pose proof (N.pow_nonzero 2 (k+1)). lia.
  - cbn [word_at]. apply lxor_lt.
    + destruct b; [apply N.pow_lt_mono_r; lia|]. pose proof (N.pow_nonzero 2 (k+1)). lia.
    + destruct r as [|b' r'].
      { simpl. pose proof (N.pow_nonzero 2 (k+1)). lia. }
      simpl length in H. eapply N.lt_le_trans; [apply IH; simpl length; lia|].
      apply N.pow_le_mono_r; lia.
Qed.

Lemma word_at_shift bs : forall k, N.of_nat (length bs) <= k + 1 ->
  word_at bs (k + 1) = N.shiftl (word_at bs k) 1.
Proof.
  induction bs as [|b r IH]; intros k H; [reflexivity|].
  cbn [word_at]. rewrite N.shiftl_lxor. f_equal.
  - destruct b; [|reflexivity]. rewrite N.shiftl_mul_pow2. change (2^1) with 2.
    rewrite N.add_1_r, N.pow_succ_r'. lia.
  - destruct r as [|b' r']; [reflexivity|].
    simpl length in H. rewrite <- IH by (simpl length; lia). f_equal. lia.
Qed.

Lemma feeds_word bs : forall c, (length bs <= 32)%nat ->
  feeds bs c = Nat.iter (length bs) soft_bit (N.lxor c (word_at bs 31)).
Proof.
  induction bs as [|b r IH]; intros c H.
  - change (c = N.lxor c 0). now rewrite N.lxor_0_r.
  - change (feeds (b :: r) c) with (feeds r (feed c b)).
    simpl length in *. rewrite IH by lia.
    cbn [word_at]. change (31 - 1) with 30.
    replace (word_at r 31) with (soft_bit (word_at r 30)).
    + unfold feed. rewrite <- soft_bit_lxor, N.lxor_assoc.
      change (if b then 2^31 else 0) with (bit31 b).
      generalize (N.lxor c (N.lxor (bit31 b) (word_at r 30))). intro x.
      clear. induction (length r); [reflexivity|].
      change (Nat.iter (S n) soft_bit (soft_bit x)) with (soft_bit (Nat.iter n soft_bit (soft_bit x))).
      now rewrite IHn.
    + pose proof (word_at_lt r 30) as L. change (30 + 1) with 31 in L.
      assert (L' : word_at r 30 < 2^31) by (apply L; lia).
      rewrite soft_bit_alt. unfold top.
      replace (N.testbit (word_at r 30) 31) with false.
      * rewrite N.lxor_0_r. change 31 with (30 + 1). rewrite word_at_shift by lia.
        apply u32_id. rewrite N.shiftl_mul_pow2. change (2^32) with (2^31 * 2^1). 
        apply N.mul_lt_mono_pos_r; [reflexivity|exact L'].
      * symmetry. destruct (N.eq_dec (word_at r 30) 0) as [->|]; [apply N.bits_0|].
        apply N.bits_above_log2. apply N.log2_lt_pow2; [lia|exact L'].
Qed.

Lemma word_at_eq0 bs : forall k, N.of_nat (length bs) <= k + 1 ->
  word_at bs k = 0 -> bs = repeat false (length bs).
Proof.
  induction bs as [|b r IH]; intros k H E; [reflexivity|].
  cbn [word_at] in E. apply lxor_eq0 in E.
  assert (Lr : word_at r (k - 1) < 2^k).
  { destruct r as [|b' r']; [simpl; pose proof (N.pow_nonzero 2 k); lia|].
    simpl length in H.
    replace (2^k) with (2^(k - 1 + 1)) by (f_equal; lia).
    apply word_at_lt. simpl length. lia. }
  destruct b; [rewrite E in Lr; lia|].
  simpl length in *. cbn [repeat]. f_equal.
  destruct r as [|b' r']; [reflexivity|].
  apply (IH (k - 1)); [simpl length in *; lia|auto].
Qed.

Lemma feeds_nonzero e : (length e <= 32)%nat -> feeds e 0 = 0 -> e = repeat false (length e).
Proof.
  intros H E. rewrite feeds_word in E by auto. rewrite N.lxor_0_l in E.
  apply iter_eq0 in E.
  - apply (word_at_eq0 e 31); auto. lia.
  - change (2^32) with (2^(31+1)). apply word_at_lt. lia.
Qed.

Lemma soft_byte_bits c b : b < 256 -> soft_byte c b = feeds (bits_of_byte b) c.
Proof.
  intro Hb. rewrite soft_byte_split.
  assert (H0 : soft_byte 0 b = feeds (bits_of_byte b) 0).
  { apply N.eqb_eq. revert b Hb.
    apply (byte_cases (fun b => N.eqb (soft_byte 0 b) (feeds (bits_of_byte b) 0))).
    vm_compute. reflexivity. }
  rewrite H0. rewrite <- (feeds_false 8).
  rewrite <- (feeds_lxor (repeat false 8) (bits_of_byte b) c 0) by reflexivity.
  rewrite N.lxor_0_r. f_equal. unfold bits_of_byte. cbn [repeat combine map fst snd].
  now rewrite !xorb_false_l.
Qed.

Lemma fold_soft_bits data : forall c, bytes data ->
  fold_left soft_byte data c = feeds (bits data) c.
Proof.
  induction data as [|b r IH]; intros c H; [reflexivity|].
  inversion H; subst. cbn [fold_left]. rewrite IH by auto.
  unfold bits. cbn [flat_map]. unfold feeds. rewrite fold_left_app.
  f_equal. now apply soft_byte_bits.
Qed.

Lemma bits_of_byte_inj b b' : b < 256 -> b' < 256 -> bits_of_byte b = bits_of_byte b' -> b = b'.
Proof.
  intros Hb Hb' E. injection E. intros.
  apply N.bits_inj. intro i.
  destruct (N.ltb_spec i 8).
  - assert (C : i = 0 \/ i = 1 \/ i = 2 \/ i = 3 \/ i = 4 \/ i = 5 \/ i = 6 \/ i = 7) by lia.
    destruct C as [C|[C|[C|[C|[C|[C|[C|C]]]]]]]; rewrite C; assumption.
  - assert (Z : forall x, x < 256 -> N.testbit x i = false).
    { intros x Hx. destruct (N.eq_dec x 0) as [->|]; [apply N.bits_0|].
      apply N.bits_above_log2. change 256 with (2^8) in Hx. apply N.log2_lt_pow2 in Hx; lia. }
    now rewrite !Z.
Qed.

Lemma bits_inj d : forall d', bytes d -> bytes d' -> length d = length d' -> bits d = bits d' -> d = d'.
Proof.
  induction d as [|b r IH]; intros [|b' r'] H H' L E; try discriminate L; [reflexivity|].
  inversion H; inversion H'; subst.
  unfold bits in E. cbn [flat_map] in E.
  assert (E1 : bits_of_byte b = bits_of_byte b' /\ bits r = bits r').
  { unfold bits_of_byte in *. cbn [app] in E. injection E. intros. split; [congruence|assumption]. }
  destruct E1. f_equal; [now apply bits_of_byte_inj|]. apply IH; auto.
Qed.

Lemma feeds_app a b c : feeds (a ++ b) c = feeds b (feeds a c).
Proof. unfold feeds. apply fold_left_app. Qed.

Lemma xor_self_false (l : list bool) :
  map (fun p => xorb (fst p) (snd p)) (combine l l) = repeat false (length l).
Proof. induction l; [reflexivity|]. cbn. rewrite IHl, xorb_nilpotent. reflexivity. Qed.

Lemma xor_false_eq (w w' : list bool) : length w = length w' ->
  map (fun p => xorb (fst p) (snd p)) (combine w w') = repeat false (length w) -> w = w'.
Proof.
  revert w'. induction w; intros [|b w'] L E; try discriminate L; [reflexivity|].
  cbn in E. injection E. intros E1 E2. f_equal; [|apply IHw; auto].
  destruct a, b; auto; discriminate.
Qed.

Lemma burst_changes_crc d d' : bytes d -> bytes d' -> burst32 d d' ->
  crc32_soft d <> crc32_soft d'.
Proof.
  intros Hd Hd' [L [N [pre [w [w' [post [E [E' [Lw Lw32]]]]]]]]] H.
  unfold crc32_soft in H. rewrite !fold_soft_bits in H by auto.
  rewrite E, E', !feeds_app in H.
  set (s := feeds pre CRC32_START) in *.
  assert (Z : N.lxor (feeds post (feeds w s)) (feeds post (feeds w' s)) = 0)
    by (rewrite H; apply N.lxor_nilpotent).
  rewrite <- feeds_lxor in Z by reflexivity.
  rewrite xor_self_false, feeds_false in Z.
  assert (Ls : s < 2^32) by (apply feeds_lt; reflexivity).
  apply iter_eq0 in Z; [|apply lxor_lt; now apply feeds_lt].
  rewrite <- feeds_lxor in Z by auto. rewrite N.lxor_nilpotent in Z.
  assert (Le : length (map (fun p => xorb (fst p) (snd p)) (combine w w')) = length w).
  { rewrite map_length, combine_length. lia. }
  apply feeds_nonzero in Z; [|lia].
  rewrite Le in Z. apply xor_false_eq in Z; auto. subst w'.
  apply N. apply bits_inj; auto. now rewrite E, E'.
Qed.

Lemma burst_detected d d' : bytes d -> bytes d' -> burst32 d d' ->
  crc32_table d = Some 0 -> crc32_table d' <> Some 0.
Proof.
  intros Hd Hd' Hb H H'. rewrite crc32_table_soft in H, H' by auto.
  apply some_inj in H. apply some_inj in H'.
  apply (burst_changes_crc d d'); auto. now rewrite H, H'.
Qed.

(** little-endian store of the byte-swapped checksum = big-endian checksum *)
Lemma ones_mask k j : N.testbit (N.shiftl 0xff (8 * k)) j = (8 * k <=? j) && (j <? 8 * k + 8).
Proof.
  destruct (N.leb_spec (8*k) j).
  - rewrite N.shiftl_spec_high' by lia. change 0xff with (N.ones 8).
    destruct (N.ltb_spec j (8*k+8)).
    + rewrite N.ones_spec_low by lia. reflexivity.
    + rewrite N.ones_spec_high by lia. reflexivity.
  - now rewrite N.shiftl_spec_low.
Qed.

Ltac decide_cmp :=
  repeat match goal with
  | |- context [N.ltb ?a ?b] =>
      first [ replace (N.ltb a b) with true by (symmetry; apply N.ltb_lt; lia)
            | replace (N.ltb a b) with false by (symmetry; apply N.ltb_ge; lia) ]
  | |- context [N.leb ?a ?b] =>
      first [ replace (N.leb a b) with true by (symmetry; apply N.leb_le; lia)
            | replace (N.leb a b) with false by (symmetry; apply N.leb_gt; lia) ]
  end.

Lemma revert_testbit c j :
  N.testbit (REVERT_CRC32 c) j =
    if j <? 8 then N.testbit c (j + 24)
    else if j <? 16 then N.testbit c (j + 8)
    else if j <? 24 then N.testbit c (j - 8)
    else if j <? 32 then N.testbit c (j - 24) else false.
Proof.
  unfold REVERT_CRC32.
  change 0xff000000 with (N.shiftl 0xff (8 * 3)).
  change 0xff0000 with (N.shiftl 0xff (8 * 2)).
  change 0xff00 with (N.shiftl 0xff (8 * 1)).
  change (N.land c 0xff) with (N.land c (N.shiftl 0xff (8 * 0))).
  rewrite !N.lor_spec, !u32_testbit, !N.shiftr_spec', !N.land_spec, !ones_mask.
  assert (SL : forall a k, N.testbit (N.shiftl a k) j = (k <=? j) && N.testbit a (j - k)).
  { intros a k. destruct (N.leb_spec k j).
    - now rewrite N.shiftl_spec_high' by lia.
    - now rewrite N.shiftl_spec_low. }
  rewrite !SL, !N.land_spec, !ones_mask.
  change (8 * 0) with 0. change (8 * 1) with 8. change (8 * 2) with 16. change (8 * 3) with 24.
  change (0 + 8) with 8. change (8 + 8) with 16. change (16 + 8) with 24. change (24 + 8) with 32.
  assert (R : j < 8 \/ 8 <= j < 16 \/ 16 <= j < 24 \/ 24 <= j < 32 \/ 32 <= j) by lia.
  destruct R as [R|[R|[R|[R|R]]]]; decide_cmp;
  rewrite ?andb_true_r, ?andb_false_r, ?orb_false_r, ?andb_true_l, ?andb_false_l, ?orb_false_l; auto.
Qed.

Lemma le32_revert c : c < 2^32 -> le32 (REVERT_CRC32 c) = be32 c.
Proof.
  intro Hc. unfold le32, be32.
  assert (Hhi : forall j, 32 <= j -> N.testbit c j = false).
  { intros j Hj. destruct (N.eq_dec c 0) as [->|]; [apply N.bits_0|].
    apply N.bits_above_log2. apply N.log2_lt_pow2 in Hc; lia. }
  assert (M : forall a j, N.testbit (N.land a 0xff) j = N.testbit a j && (j <? 8)).
  { intros a j. rewrite N.land_spec. f_equal.
    pose proof (ones_mask 0 j) as O. change (8 * 0) with 0 in O. change (0 + 8) with 8 in O.
    rewrite N.shiftl_0_r in O. rewrite O. decide_cmp. reflexivity. }
  assert (D : forall a j, N.testbit (a mod 256) j = (j <? 8) && N.testbit a j).
  { intros a j. change 256 with (2^8). destruct (N.ltb_spec j 8).
    - now rewrite N.mod_pow2_bits_low.
    - now rewrite N.mod_pow2_bits_high. }
  f_equal; [|f_equal; [|f_equal; [|f_equal]]];
  apply N.bits_inj; intro j; rewrite M, ?N.shiftr_spec', revert_testbit, ?D, ?N.div_pow2_bits;
  (assert (R : j < 8 \/ 8 <= j) by lia; destruct R as [R|R]; decide_cmp;
   rewrite ?andb_true_r, ?andb_false_r, ?andb_true_l, ?andb_false_l; auto; try (f_equal; lia)).
  rewrite Hhi by lia. reflexivity.
Qed.

Lemma be32_bytes w : w < 2^32 -> bytes (be32 w).
Proof.
  intro Hw. unfold be32. repeat constructor; try (apply N.mod_lt; discriminate).
  apply N.div_lt_upper_bound; [discriminate|]. exact Hw.
Qed.
