(** Specification and proofs for the state layout and raw decoding. *)
From Coq Require Import ZArith List Bool Lia.
From Verif Require Import LayoutModel.
Import ListNotations.

(** the optional blocks as (first index, size), and membership *)
Definition blocks (s : selection) : list (nat * nat) :=
  [(gyro_start s, gyro_size s); (acce_start s, acce_size s); (arm_start s, arm_size s); (odo_start s, odo_size s)].
Definition holds (b : nat * nat) (i : nat) : Prop := fst b <= i < fst b + snd b.
(** every state index behind the 15 basic ones belongs to exactly one block and blocks contain no
    other index *)
Definition consistent (s : selection) : Prop :=
  forall i, (BASE_STATE <= i < STATE_CNT s ->
      exists k b, nth_error (blocks s) k = Some b /\ holds b i /\
        forall k' b', nth_error (blocks s) k' = Some b' -> holds b' i -> k' = k) /\
    (forall b, In b (blocks s) -> holds b i -> BASE_STATE <= i < STATE_CNT s).

(** the selections for which the layout works *)
Definition good_selection (s : selection) : bool :=
  (negb (level_arm s) || acce_sf s || negb (gyro_sf s)) &&
  (negb (odo_sf s) || (if level_arm s then acce_sf s || negb (gyro_sf s)
                       else negb (acce_sf s) && negb (gyro_sf s))).

Ltac ev := cbv [holds fst snd gyro_start gyro_size acce_start acce_size arm_start arm_size odo_start odo_size
  BASE_STATE STATE_CNT Nat.add Nat.sub gyro_sf acce_sf level_arm odo_sf] in *.

Lemma blocks_inside s b i : In b (blocks s) -> holds b i -> BASE_STATE <= i < STATE_CNT s.
Proof.
  intros H Hi. unfold blocks in H. cbn [In] in H.
  destruct s as [[] [] [] []]; destruct H as [<-|[<-|[<-|[<-|[]]]]]; ev; lia.
Qed.

Ltac pick k := exists k; eexists; split; [reflexivity|]; split; [ev; lia|];
  intros [|[|[|[|k']]]] b' E' Hb'; cbn in E'; try (destruct k'; discriminate E');
  injection E' as <-; ev; lia.

Lemma layout_iff s : consistent s <-> good_selection s = true.
Proof.
  split.
  - intro C. destruct s as [[] [] [] []]; try reflexivity; exfalso; red in C;
    match type of C with forall i, (_ <= i < STATE_CNT ?s -> _) /\ _ =>
      destruct (C (STATE_CNT s - 1)) as [H _]; clear C; destruct (H ltac:(ev; lia)) as (k & b & E & Hb & _);
      clear H; destruct k as [|[|[|[|k]]]]; cbn in E; try (destruct k; discriminate E);
      injection E as <-; ev; lia
    end.
  - intros G i. split; [|intros b Hb Hi; exact (blocks_inside s b i Hb Hi)].
    intro Hi. destruct s as [[] [] [] []]; try discriminate G; clear G; unfold blocks; ev; try lia;
    first
    [ assert (Hc : 15 <= i < 18 \/ 18 <= i < 21 \/ 21 <= i < 24 \/ i = 24) by lia;
      destruct Hc as [Hc|[Hc|[Hc|Hc]]]; [pick 0|pick 1|pick 2|pick 3]
    | assert (Hc : 15 <= i < 18 \/ 18 <= i < 21 \/ 21 <= i < 24) by lia;
      destruct Hc as [Hc|[Hc|Hc]]; [pick 0|pick 1|pick 2]
    | assert (Hc : 15 <= i < 18 \/ 18 <= i < 21) by lia;
      destruct Hc as [Hc|Hc]; [pick 0|pick 1]
    | assert (Hc : 15 <= i < 18 \/ 18 <= i < 21 \/ i = 21) by lia;
      destruct Hc as [Hc|[Hc|Hc]]; [pick 1|pick 2|pick 3]
    | assert (Hc : 15 <= i < 18 \/ 18 <= i < 21) by lia;
      destruct Hc as [Hc|Hc]; [pick 1|pick 2]
    | assert (Hc : 15 <= i < 18 \/ i = 18) by lia;
      destruct Hc as [Hc|Hc]; [pick 2|pick 3]
    | pick 0 | pick 1 | pick 2 | pick 3 ].
Qed.

(** ** raw velocity *)
Lemma raw_velocity_spec h l : (0 <= h < 256 -> 0 <= l < 256 ->
  let u := h * 256 + l in raw_velocity h l = if u <? 32768 then u else u - 65536)%Z.
Proof.
  intros Hh Hl u. unfold raw_velocity, int16. rewrite Z.shiftl_mul_pow2 by lia.
  change (2 ^ 8)%Z with 256%Z. rewrite Z.mod_small by lia.
  assert (L : forall k, Z.lor (k * 256) l = (k * 256 + l)%Z).
  { intro k. assert (D : Z.land (k * 256) l = 0%Z); [|rewrite Z.add_nocarry_lxor, Z.lxor_lor by exact D; reflexivity].
    apply Z.bits_inj'. intros n Hn.
    rewrite Z.land_spec, Z.bits_0. change 256%Z with (2 ^ 8)%Z.
    destruct (Z.lt_ge_cases n 8).
    - rewrite Z.mul_pow2_bits_low by lia. reflexivity.
    - replace (Z.testbit l n) with false; [apply andb_false_r|].
      symmetry. destruct (Z.eq_dec l 0) as [->|N]; [apply Z.bits_0|].
      apply Z.bits_above_log2; [lia|]. apply Z.log2_lt_pow2; [lia|].
      apply Z.lt_le_trans with (2 ^ 8)%Z; [lia|]. apply Z.pow_le_mono_r; lia. }
  subst u. destruct (Z.ltb_spec (h * 256) 32768).
  - rewrite L. replace (h * 256 + l <? 32768)%Z with true; [reflexivity|].
    symmetry. apply Z.ltb_lt. assert (h < 128)%Z by lia. lia.
  - replace (h * 256 - 65536)%Z with ((h - 256) * 256)%Z by lia. rewrite L.
    replace (h * 256 + l <? 32768)%Z with false; [lia|]. symmetry. apply Z.ltb_ge. lia.
Qed.

(** ** raw checksum *)
Lemma checksum_sum : forall l s, Forall (fun b => 0 <= b < 256)%Z l ->
  (0 <= s -> s + 256 * Z.of_nat (length l) < 65536 ->
   fold_left (fun s b => (s + b) mod 65536) l s = s + fold_right Z.add 0 l)%Z.
Proof.
  induction l as [|b l IH]; intros s F Hs Hb; [cbn; lia|].
  inversion F as [|? ? Hb0 F']; subst. cbn [fold_left fold_right length] in *.
  rewrite Z.mod_small by lia. rewrite IH; [lia|exact F'|lia|lia].
Qed.
Lemma checksum_iff frame : length frame = 20%nat -> Forall (fun b => 0 <= b < 256)%Z frame ->
  (adi_checksum frame = true <-> frame = repeat 0%Z 20).
Proof.
  intros L F. unfold adi_checksum. rewrite firstn_all2 by lia.
  rewrite checksum_sum by (auto; lia). rewrite Z.add_0_l, Z.eqb_eq. rewrite <- L. clear L.
  induction F as [|b l Hb F IH]; cbn [fold_right length repeat]; [tauto|].
  assert (0 <= fold_right Z.add 0 l)%Z by (clear IH; induction F; cbn; lia).
  split; intro E.
  - f_equal; [lia|]. apply IH. lia.
  - injection E as -> E. apply IH in E. lia.
Qed.
