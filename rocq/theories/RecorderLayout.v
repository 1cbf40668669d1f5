(** Frame layout, integer display and concrete witnesses for the recorder. *)
From Coq Require Import NArith ZArith List Lia Bool Sorted.
From Verif Require Import CrcModel CrcSpec CrcProofs RecorderModel LoaderModel LoaderSpec
  LoaderProofs LoaderProofs2 LoaderProofs3 LoaderProofs4.
Import ListNotations.
Open Scope N_scope.

Local Opaque crc32_table le32 N.pow.
Arguments N.pow : simpl never.

Lemma sub_app pre mid post i n : length pre = i -> length mid = n ->
  sub (pre ++ mid ++ post) i n = mid.
Proof. intros <- <-. unfold sub. apply firstn_skipn_mid. Qed.

Lemma frame_layout m old : m_id m < 2^32 -> m_timestamp m < 2^64 ->
  28 + N.of_nat (length (payload_bytes m)) < 2^32 ->
  exists f c, record_bytes m old = Some f /\
    length f = (28 + length (payload_bytes m))%nat /\
    sub f 0 4 = [0x55; 0xAA; 0x55; 0xAA] /\
    of_le (sub f 4 4) = m_id m /\
    of_le (sub f 8 8) = m_timestamp m /\
    of_le (sub f 16 4) = N.of_nat (length f) /\
    sub f 20 (length f - 28) = payload_bytes m /\
    is_crc32 (sub f 0 (length f - 8)) c /\
    sub f (length f - 8) 4 = be32 c /\
    sub f (length f - 4) 4 = [0x66; 0xAA; 0x66; 0xAA] /\
    crc32_table (sub f 0 (length f - 4)) = Some 0.
Proof.
  intros Hid Hts Hs. destruct (record_bytes_shape m old Hs) as [c [Hc [Ec Ef]]].
  set (f := msg_prefix m ++ be32 c ++ le32 RECORDER_END_MARK) in *.
  exists f, c. pose proof (frame_length m c) as Lf. fold f in Lf.
  assert (Hsz : u32 (msg_sizeof m) = N.of_nat (length f)).
  { unfold msg_sizeof. rewrite u32_id by lia. lia. }
  set (P := payload_bytes m) in *. 
  assert (E : f = le32 RECORDER_HEADER ++ le32 (m_id m) ++ le_bytes 8 (m_timestamp m)
     ++ le32 (N.of_nat (length f)) ++ P ++ be32 c ++ le32 RECORDER_END_MARK).
  { rewrite <- Hsz. unfold f, msg_prefix. fold P. rewrite <- !app_assoc. reflexivity. }
  assert (Lb : length (be32 c) = 4%nat) by reflexivity.
  split; [exact Ef|]. split; [exact Lf|].
  split. { rewrite E. change [0x55; 0xAA; 0x55; 0xAA] with (le32 RECORDER_HEADER).
    apply (sub_app [] (le32 RECORDER_HEADER)); [reflexivity|apply le32_length]. }
  split. { rewrite E. rewrite (sub_app (le32 RECORDER_HEADER) (le32 (m_id m))) by apply le32_length.
    now apply of_le32. }
  split. { rewrite E, (app_assoc (le32 RECORDER_HEADER)).
    rewrite (sub_app (le32 RECORDER_HEADER ++ le32 (m_id m)) (le_bytes 8 (m_timestamp m)));
      [|rewrite app_length, !le32_length; reflexivity|apply le_bytes_length].
    apply of_le_bytes. exact Hts. }
  split. { rewrite E at 1. rewrite (app_assoc (le32 RECORDER_HEADER)), (app_assoc (_ ++ _) (le_bytes 8 _)).
    rewrite (sub_app _ (le32 (N.of_nat (length f))));
      [|rewrite !app_length, !le32_length, le_bytes_length; reflexivity|apply le32_length].
    apply of_le32. lia. }
  split. { rewrite E at 1. rewrite (app_assoc (le32 RECORDER_HEADER)), (app_assoc (_ ++ _) (le_bytes 8 _)),
      (app_assoc (_ ++ _) (le32 (N.of_nat _))).
    apply sub_app; [rewrite !app_length, !le32_length, le_bytes_length; reflexivity|lia]. }
  assert (Lm : length (msg_prefix m) = (length f - 8)%nat) by (rewrite msg_prefix_length; fold P; lia).
  assert (E8 : sub f 0 (length f - 8) = msg_prefix m).
  { unfold f at 1. apply (sub_app [] (msg_prefix m)); [reflexivity|exact Lm]. }
  split. { rewrite E8. pose proof (crc32_soft_is_crc _ (msg_prefix_bytes m)) as X.
    rewrite crc32_table_soft in Ec by apply msg_prefix_bytes. apply some_inj in Ec. rewrite <- Ec. exact X. }
  split. { unfold f at 1. apply sub_app; [exact Lm|reflexivity]. }
  split. { change [0x66; 0xAA; 0x66; 0xAA] with (le32 RECORDER_END_MARK).
    unfold f at 1. rewrite app_assoc, <- (app_nil_r (le32 RECORDER_END_MARK)).
    apply sub_app; [|apply le32_length]. rewrite app_length, Lb, msg_prefix_length. fold P. lia. }
  assert (E4 : sub f 0 (length f - 4) = msg_prefix m ++ be32 c).
  { unfold f at 1. rewrite app_assoc. apply (sub_app [] (msg_prefix m ++ be32 c)); [reflexivity|].
    rewrite app_length, Lb, msg_prefix_length. fold P. lia. }
  rewrite E4. apply residue_iff; auto. apply msg_prefix_bytes.
Qed.

(** integer items *)
Definition int_type (t : base_type) : option bool (* signed? *) :=
  match t with
  | Tu8 | Tu16 | Tu32 | Tu64 => Some false
  | Ti8 | Ti16 | Ti32 | Ti64 => Some true
  | Tf32 | Tf64 => None
  end.
(** [z] is representable in integer type [t] *)
Definition fits (t : base_type) (z : Z) : Prop :=
  match int_type t with
  | Some false => (0 <= z < 2^(8 * Z.of_nat (type_size t)))%Z
  | Some true => (- 2^(8 * Z.of_nat (type_size t) - 1) <= z < 2^(8 * Z.of_nat (type_size t) - 1))%Z
  | None => False
  end.
(** object representation of the integer (two's complement) *)
Definition encode (t : base_type) (z : Z) : N := Z.to_N (z mod 2^(8 * Z.of_nat (type_size t))).

Lemma signed_encode t n z : int_type t = Some true -> type_size t = n -> fits t z ->
  signed n (encode t z) = z.
Proof.
  intros Hi <- Hf. unfold fits in Hf. rewrite Hi in Hf. unfold signed, encode.
  set (w := (8 * Z.of_nat (type_size t))%Z) in *.
  assert (Hw : (0 < w)%Z) by (unfold w; destruct t; cbn; lia).
  assert (E : (2 * 2^(w-1) = 2^w)%Z).
  { rewrite <- Z.pow_succ_r by lia. f_equal. lia. }
  assert (Hp : (0 < 2^w)%Z) by (apply Z.pow_pos_nonneg; lia).
  rewrite Z2N.id by (apply Z.mod_pos_bound; lia). rewrite E.
  destruct (Z_lt_le_dec z 0).
  - replace (z mod 2^w)%Z with (z + 2^w)%Z.
    + destruct (Z.ltb_spec (z + 2^w) (2^(w-1))); lia.
    + apply (Z.mod_unique _ _ (-1)); lia.
  - rewrite Z.mod_small by lia. destruct (Z.ltb_spec z (2^(w-1))); lia.
Qed.

Lemma unsigned_encode t z : int_type t = Some false -> fits t z -> Z.of_N (encode t z) = z.
Proof.
  intros Hi Hf. unfold fits in Hf. rewrite Hi in Hf. unfold encode.
  rewrite Z.mod_small by lia. apply Z2N.id. lia.
Qed.

Lemma integers_exact t z : fits t z -> (Z.abs z <= 2^24)%Z -> shown (t, encode t z) = VInt z.
Proof.
  intros Hf Hz. unfold shown. cbn [fst snd].
  destruct t; try contradiction Hf; unfold cast_float; f_equal;
  first [rewrite unsigned_encode by (auto; reflexivity) | rewrite signed_encode by (auto; reflexivity)];
  now apply f32_exact.
Qed.

Lemma registered_wf : Forall wf_config registered.
Proof.
  assert (W : forall nm, length nm = 16%nat /\ forallb (fun b => b <? 256) nm = true /\
     existsb (fun b => b =? 0) nm = true -> wf_name nm).
  { intros nm [H1 [H2 H3]]. split; [auto|split].
    - apply Forall_forall. intros x Hx. rewrite forallb_forall in H2. apply N.ltb_lt. auto.
    - apply existsb_exists in H3. destruct H3 as [x [Hx E]]. apply N.eqb_eq in E. now subst. }
  assert (B : forallb (fun dc => (dc_id dc <? 2^32) && (Nat.eqb (length (dc_name dc)) 16 &&
     (forallb (fun b => b <? 256) (dc_name dc) && existsb (fun b => b =? 0) (dc_name dc))) &&
     forallb (fun ic => Nat.eqb (length (ic_name ic)) 16 &&
     (forallb (fun b => b <? 256) (ic_name ic) && existsb (fun b => b =? 0) (ic_name ic))) (dc_items dc)) registered = true)
    by (vm_compute; reflexivity).
  rewrite forallb_forall in B. apply Forall_forall. intros dc Hd. specialize (B dc Hd).
  apply andb_true_iff in B. destruct B as [B B3]. apply andb_true_iff in B. destruct B as [B1 B2].
  split; [now apply N.ltb_lt|]. split.
  - apply W. apply andb_true_iff in B2. destruct B2 as [X Y]. apply andb_true_iff in Y. destruct Y.
    repeat split; auto. now apply Nat.eqb_eq.
  - apply Forall_forall. intros ic Hic. rewrite forallb_forall in B3. specialize (B3 ic Hic).
    apply W. apply andb_true_iff in B3. destruct B3 as [X Y]. apply andb_true_iff in Y. destruct Y.
    repeat split; auto. now apply Nat.eqb_eq.
Qed.

Lemma registered_nodup : NoDup (map dc_id registered).
Proof.
  assert (E : map dc_id registered = [1441827; 1441828; 1441829; 1441830; 1441831; 1441832; 1507361; 1507362])
    by (vm_compute; reflexivity).
  rewrite E. repeat constructor; cbn; intuition discriminate.
Qed.

Definition registered_header : list N :=
  match write_header registered with Some h => h | None => [] end.
Lemma registered_written : write_header registered = Some registered_header.
Proof.
  unfold registered_header.
  assert (H : match write_header registered with Some _ => true | None => false end = true)
    by (vm_compute; reflexivity).
  destruct (write_header registered); [reflexivity|discriminate].
Qed.

(** a concrete AHRS and a concrete GNSS record (with the start mark inside the payload) *)
Definition ex_ahrs : message :=
  {| m_id := dc_id cfg_ahrs; m_timestamp := 0x40F86A0000000000;
     m_items := [(Tf32, 0x3F800000); (Tf32, 0xAA55AA55); (Tf32, 0xC0490FDB)] |}.
Definition ex_gnss : message :=
  {| m_id := dc_id cfg_gnss; m_timestamp := 0x40F86A1000000000;
     m_items := [(Tf32, 1); (Tf32, 2); (Tf32, 3); (Tf32, 4); (Tf32, 5); (Tu16, 0xAA55); (Tu8, 4); (Tu32, 16777217)] |}.

Lemma ex_ahrs_record : record_of cfg_ahrs ex_ahrs.
Proof. repeat split. repeat constructor. Qed.
Lemma ex_gnss_record : record_of cfg_gnss ex_gnss.
Proof. repeat split. repeat constructor. Qed.
Lemma in_registered_ahrs : In cfg_ahrs registered.
Proof.
  assert (E : registered = [cfg_kalman; cfg_meas_pos; cfg_result; cfg_time_check; cfg_ahrs; cfg_align; cfg_imu; cfg_gnss])
    by (vm_compute; reflexivity).
  rewrite E. cbn. tauto.
Qed.
Lemma in_registered_gnss : In cfg_gnss registered.
Proof.
  assert (E : registered = [cfg_kalman; cfg_meas_pos; cfg_result; cfg_time_check; cfg_ahrs; cfg_align; cfg_imu; cfg_gnss])
    by (vm_compute; reflexivity).
  rewrite E. cbn. tauto.
Qed.
