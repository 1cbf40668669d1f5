(** Corollaries of the loader lemmas in the form the property theorems use. *)
From Coq Require Import NArith ZArith List Lia Bool Sorted.
From Verif Require Import CrcModel CrcSpec CrcProofs RecorderModel LoaderModel LoaderSpec
  LoaderProofs LoaderProofs2 LoaderProofs3 LoaderProofs4 RecorderLayout.
Import ListNotations.
Open Scope N_scope.

Local Opaque crc32_table le32 N.pow.
Arguments N.pow : simpl never.

Lemma load_new cfg : forall dc, In dc cfg ->
  find (dc_id dc) (l_cfgs new_loader) = None \/ find (dc_id dc) (l_cfgs new_loader) = Some (expected_cfg dc).
Proof. intros. left. reflexivity. Qed.
Lemma holds_new cfg : holds cfg [] new_loader.
Proof. intros dc _. reflexivity. Qed.
Lemma none_else_new cfg : none_else cfg new_loader.
Proof. intros dc _. reflexivity. Qed.

Lemma find_none_notin cfg k : ~ In k (map dc_id cfg) -> List.find (fun dc => dc_id dc =? k) cfg = None.
Proof.
  intro H. destruct (List.find _ cfg) as [dc|] eqn:E; [|reflexivity].
  apply find_some in E. destruct E as [E1 E2]. apply N.eqb_eq in E2. destruct H. subst.
  now apply in_map.
Qed.

(** header round trip *)
Lemma header_round_trip cfg hdr post st0 : cfg <> [] -> Forall wf_config cfg -> NoDup (map dc_id cfg) ->
  write_header cfg = Some hdr -> l_cfgs st0 = [] ->
  exists st off, load_header (hdr ++ post) st0 = Ret (st, off) /\
    (forall dc, In dc cfg -> find (dc_id dc) (l_cfgs st) = Some (expected_cfg dc)) /\
    (forall id, ~ In id (map dc_id cfg) -> find id (l_cfgs st) = None) /\
    l_version st = RECORDER_VERSION_BITS /\ l_header_size st = N.of_nat (length hdr) /\
    l_err st = l_err st0 /\ l_strs st = l_strs st0 /\ l_data st = l_data st0.
Proof.
  intros Hn Hw Hd Hh H0. rewrite (load_header_ok cfg hdr post st0 Hn Hw Hh).
  eexists _, _. split; [reflexivity|]. cbn [l_cfgs l_version l_header_size l_err l_strs l_data].
  rewrite H0. repeat split.
  - apply cfgs_found; auto.
  - intros id Hi. rewrite find_add_cfgs. cbn [find List.find]. now rewrite find_none_notin.
Qed.

(** unusable headers *)
Definition header_len (buf : list N) : N := of_le (sub buf 4 4).
Definition has_start_mark (buf : list N) : Prop := of_le (sub buf 0 4) = RECORDER_HEADER_START_MARK.

Lemma rd32_sub buf off : (off + 4 <= length buf)%nat -> rd32 buf (N.of_nat off) = Ret (of_le (sub buf off 4)).
Proof.
  intro H. unfold rd32, slice. destruct (N.leb_spec (N.of_nat off + 4) (N.of_nat (length buf))); [|lia].
  cbn [bind]. rewrite Nat2N.id. reflexivity.
Qed.

Lemma no_start_mark buf st0 : (4 <= length buf)%nat -> ~ has_start_mark buf ->
  exists st, returns (Some buf) st0 st /\ l_err st = E_NO_HEADER /\ l_strs st = [] /\ l_data st = l_data st0.
Proof.
  intros Hl Hm. unfold returns, load_file, load_header.
  pose proof (rd32_sub buf 0 Hl) as E. cbn [N.of_nat] in E. rewrite E. cbn [bind].
  unfold has_start_mark in Hm. destruct (N.eqb_spec (of_le (sub buf 0 4)) RECORDER_HEADER_START_MARK); [contradiction|].
  cbn [negb]. rewrite N.eqb_refl. eexists. split; [exists O; reflexivity|]. auto.
Qed.

Lemma header_crc_fails buf st0 c : (8 <= length buf)%nat -> has_start_mark buf ->
  4 <= header_len buf -> header_len buf < 2^32 -> header_len buf - 4 <= N.of_nat (length buf) ->
  crc32_table (sub buf 0 (N.to_nat (header_len buf - 4))) = Some c -> c <> 0 ->
  exists st, returns (Some buf) st0 st /\ l_err st = E_NO_HEADER /\ l_strs st = [S_header_damaged] /\
    l_data st = l_data st0.
Proof.
  intros Hl Hm H4 H32 Hle Hc Hc0. unfold returns, load_file, load_header.
  pose proof (rd32_sub buf 0 ltac:(lia)) as E. cbn [N.of_nat] in E. rewrite E. cbn [bind]. rewrite Hm, N.eqb_refl. cbn [negb].
  pose proof (rd32_sub buf 4 Hl) as E4. change (N.of_nat 4) with 4 in E4. rewrite E4. cbn [bind].
  fold (header_len buf).
  replace (u32 (header_len buf + 2 ^ 32 - 4)) with (header_len buf - 4).
  2:{ unfold u32. change 4294967295 with (N.ones 32). rewrite N.land_ones.
      replace (header_len buf + 2^32 - 4) with (header_len buf - 4 + 1 * 2^32) by lia.
      rewrite N.mod_add by (intro X; vm_compute in X; discriminate). rewrite N.mod_small; lia. }
  unfold crc_range, slice. destruct (N.leb_spec (0 + (header_len buf - 4)) (N.of_nat (length buf))); [|lia].
  cbn [bind]. unfold sub in Hc. change (N.to_nat 0) with 0%nat. rewrite Hc. cbn [bind].
  destruct (N.eqb_spec c 0); [contradiction|]. cbn [negb]. rewrite N.eqb_refl.
  eexists. split; [exists O; reflexivity|]. auto.
Qed.

(** a file that cannot be opened *)
Lemma missing_file st0 : exists st, returns None st0 st /\ l_err st = E_OK /\ l_strs st = [S_nofile] /\
  l_data st = l_data st0.
Proof. eexists. split; [exists O; reflexivity|]. auto. Qed.

(** loading two recordings with one loader object *)
Lemma second_load cfg hdr ms1 ms2 olds1 olds2 fs1 fs2 :
  cfg <> [] -> Forall wf_config cfg -> NoDup (map dc_id cfg) -> write_header cfg = Some hdr ->
  ms1 <> [] -> Forall (fun m => exists dc, In dc cfg /\ record_of dc m) ms1 -> frames ms1 olds1 = Some fs1 ->
  ms2 <> [] -> Forall (fun m => exists dc, In dc cfg /\ record_of dc m) ms2 -> frames ms2 olds2 = Some fs2 ->
  exists st1 st2, returns (Some (hdr ++ fs1)) new_loader st1 /\ returns (Some (hdr ++ fs2)) st1 st2 /\
    holds cfg (ms1 ++ ms2) st2 /\ l_err st2 = E_OK.
Proof.
  intros Hn Hw Hd Hh Hm1 Hf1 Hb1 Hm2 Hf2 Hb2.
  destruct (round_trip_gen cfg hdr ms1 olds1 fs1 [] new_loader Hn Hw Hd Hh Hm1 Hf1 Hb1
              (load_new cfg) (holds_new cfg) (none_else_new cfg))
    as (st1 & R1 & H1 & N1 & _ & _ & _ & C1 & _).
  destruct (round_trip_gen cfg hdr ms2 olds2 fs2 ms1 st1 Hn Hw Hd Hh Hm2 Hf2 Hb2) as (st2 & R2 & H2 & _ & E2 & _); auto.
  - intros dc Hi. right. rewrite C1. apply cfgs_found; auto.
  - exists st1, st2. auto.
Qed.

(** concrete recording *)
Definition ex_file_frames : list N :=
  match frames [ex_ahrs; ex_gnss] [0; 7] with Some f => f | None => [] end.
Lemma ex_frames : frames [ex_ahrs; ex_gnss] [0; 7] = Some ex_file_frames.
Proof.
  unfold ex_file_frames.
  assert (H : match frames [ex_ahrs; ex_gnss] [0; 7] with Some _ => true | None => false end = true)
    by (vm_compute; reflexivity).
  destruct (frames [ex_ahrs; ex_gnss] [0; 7]); [reflexivity|discriminate].
Qed.
Lemma ex_records : Forall (fun m => exists dc, In dc registered /\ record_of dc m) [ex_ahrs; ex_gnss].
Proof.
  repeat constructor; eexists; split.
  - exact in_registered_ahrs. - exact ex_ahrs_record.
  - exact in_registered_gnss. - exact ex_gnss_record.
Qed.
Lemma registered_nonempty : registered <> [].
Proof. intro E. pose proof in_registered_ahrs as H. rewrite E in H. destruct H. Qed.

Lemma skipn_skipn_add {A} (l : list A) a b : skipn b (skipn a l) = skipn (a + b) l.
Proof.
  revert l. induction a as [|a IH]; intro l; [reflexivity|].
  destruct l; [now rewrite !skipn_nil|]. cbn [skipn Nat.add]. apply IH.
Qed.

Lemma intact_residue buf off len : bytes buf -> intact_frame buf off len ->
  crc32_table (sub buf off (len - 4)) = Some 0.
Proof.
  intros Hb (H5 & Hle & _ & _ & _ & c & Hc & H8 & Hs).
  assert (Hbs : bytes (sub buf off (len - 8))).
  { unfold sub. apply Forall_forall. intros x Hx. unfold bytes in Hb. rewrite Forall_forall in Hb. apply Hb.
    rewrite <- (firstn_skipn off buf). apply in_or_app. right.
    rewrite <- (firstn_skipn (len - 8) (skipn off buf)). apply in_or_app. now left. }
  assert (E : sub buf off (len - 4) = sub buf off (len - 8) ++ be32 c).
  { rewrite <- Hs. unfold sub. replace (skipn (off + (len - 8)) buf) with (skipn (len - 8) (skipn off buf)).
    2:{ apply skipn_skipn_add. }
    rewrite <- (firstn_skipn (len - 8) (skipn off buf)) at 1.
    rewrite firstn_app. rewrite firstn_all2 by (rewrite firstn_length; lia).
    f_equal. f_equal. rewrite firstn_length, skipn_length. lia. }
  rewrite E. apply residue_iff; auto.
  pose proof (crc32_table_soft _ Hbs) as X. rewrite Hc in X. apply some_inj in X. subst c. apply crc32_soft_lt. 
Qed.

Lemma sub_bytes buf off n : bytes buf -> bytes (sub buf off n).
Proof.
  intro Hb. unfold sub. apply Forall_forall. intros x Hx. unfold bytes in Hb. rewrite Forall_forall in Hb. apply Hb.
  rewrite <- (firstn_skipn off buf). apply in_or_app. right.
  rewrite <- (firstn_skipn n (skipn off buf)). apply in_or_app. now left.
Qed.

Lemma corrupted_not_intact buf buf' off len : bytes buf -> bytes buf' ->
  intact_frame buf off len -> burst32 (sub buf off (len - 4)) (sub buf' off (len - 4)) ->
  ~ intact_frame buf' off len.
Proof.
  intros Hb Hb' Hi Hu Hi'. apply intact_residue in Hi; auto. apply intact_residue in Hi'; auto.
  revert Hi'. apply (burst_detected (sub buf off (len - 4))); auto using sub_bytes.
Qed.

(** every frame the recorder writes is intact wherever it stands *)
Lemma written_intact m old pre post f : m_id m < 2^32 -> m_timestamp m < 2^64 ->
  28 + N.of_nat (length (payload_bytes m)) < 2^32 -> record_bytes m old = Some f ->
  intact_frame (pre ++ f ++ post) (length pre) (length f).
Proof.
  intros Hid Hts Hs Hf. destruct (frame_layout m old Hid Hts Hs) as (f' & c & E & L & Hm & _ & _ & Hl & _ & Hc & Hcs & _ & Hz).
  rewrite Hf in E. apply some_inj in E. subst f'.
  assert (S : forall i n, (i + n <= length f)%nat -> sub (pre ++ f ++ post) (length pre + i) n = sub f i n).
  { intros i n Hin. unfold sub. rewrite skipn_app. rewrite skipn_all2 by lia. cbn [app].
    replace (length pre + i - length pre)%nat with i by lia.
    rewrite skipn_app, firstn_app. rewrite skipn_length.
    replace (n - (length f - i))%nat with 0%nat by lia. cbn [firstn]. now rewrite app_nil_r. }
  pose proof (S 0%nat) as S0. rewrite Nat.add_0_r in S0.
  unfold intact_frame. rewrite !app_length. repeat split; try lia.
  - rewrite S0 by lia. rewrite Hm. reflexivity.
  - rewrite S by lia. exact Hl.
  - exists c. rewrite S0 by lia. split.
    + assert (Hb : bytes (sub f 0 (length f - 8))).
      { apply sub_bytes. destruct (record_bytes_shape m old Hs) as [c' [Hc' [_ Ef]]].
        rewrite Hf in Ef. apply some_inj in Ef. rewrite Ef. rewrite !bytes_app. repeat split.
        - apply msg_prefix_bytes. - now apply be32_bytes. - apply le32_bytes. }
      rewrite crc32_table_soft by auto. f_equal. eapply is_crc32_unique; eauto. now apply crc32_soft_is_crc.
    + split; [lia|]. rewrite S by lia. exact Hcs.
Qed.

Lemma run_mono buf : forall k st r, run k buf st = Some r -> forall j, run (k + j) buf st = Some r.
Proof.
  induction k as [|k IH]; intros st r H j; [discriminate|].
  cbn [run Nat.add] in *. destruct (scan_step buf st) as [[|st']|]; auto.
Qed.
Lemma load_file_det file st0 st k k' : load_file k file st0 = Some OOB ->
  load_file k' file st0 = Some (Ret st) -> False.
Proof.
  unfold load_file. intros H H'. destruct file as [buf|]; [|discriminate].
  destruct (load_header buf _) as [[st1 off]|]; [|discriminate].
  destruct (off =? 0); [discriminate|].
  apply run_mono with (j := k') in H. apply run_mono with (j := k) in H'.
  rewrite Nat.add_comm in H'. rewrite H in H'. discriminate.
Qed.

(** one written record and a copy with one flipped bit in its payload *)
Definition ex_frame : list N :=
  Eval vm_compute in match record_bytes ex_ahrs 0 with Some f => f | None => [] end.
Definition ex_damaged : list N :=
  Eval vm_compute in firstn 30 ex_frame ++ [N.lxor (nth 30 ex_frame 0) 1] ++ skipn 31 ex_frame.
Lemma ex_frame_written : record_bytes ex_ahrs 0 = Some ex_frame.
Proof. vm_compute. reflexivity. Qed.
Lemma ex_damaged_bytes : bytes ex_damaged.
Proof. repeat constructor. Qed.
Lemma ex_damaged_burst :
  burst32 (sub ex_frame 0 (length ex_frame - 4)) (sub ex_damaged 0 (length ex_frame - 4)).
Proof.
  split; [reflexivity|]. split; [discriminate|].
  exists (firstn 240 (bits ex_frame)), (firstn 8 (skipn 240 (bits ex_frame))),
    (firstn 8 (skipn 240 (bits ex_damaged))), (firstn 40 (skipn 248 (bits ex_frame))).
  split; [vm_compute; reflexivity|]. split; [vm_compute; reflexivity|].
  split; [vm_compute; reflexivity|]. vm_compute. repeat constructor.
Qed.

Lemma registered_header_bytes : bytes registered_header.
Proof.
  assert (Hh : forallb (fun b => b <? 256) registered_header = true) by (vm_compute; reflexivity).
  apply Forall_forall. intros x Hx. rewrite forallb_forall in Hh. apply N.ltb_lt. exact (Hh x Hx).
Qed.
Lemma ex_hanging_bytes : bytes (registered_header ++ [] ++ ex_damaged ++ []).
Proof.
  apply bytes_app. split; [exact registered_header_bytes|]. apply bytes_app. split; [constructor|].
  apply bytes_app. split; [exact ex_damaged_bytes|constructor].
Qed.
Lemma ex_hanging : hangs (Some (registered_header ++ [] ++ ex_damaged ++ [])) new_loader.
Proof.
  exact (corrupted_hangs registered registered_header [] [] [] cfg_ahrs ex_ahrs 0 ex_frame ex_damaged []
    registered_nonempty registered_wf registered_nodup registered_written (Forall_nil _) eq_refl
    in_registered_ahrs ex_ahrs_record ex_frame_written eq_refl ex_damaged_bytes eq_refl eq_refl ex_damaged_burst).
Qed.
