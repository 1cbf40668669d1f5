From Coq Require Import NArith ZArith List Lia Bool Sorted.
From Verif Require Import CrcModel CrcSpec CrcProofs RecorderModel LoaderModel LoaderSpec LoaderProofs LoaderProofs2.
Import ListNotations.
Open Scope N_scope.

Local Opaque crc32_table le32 N.pow.
Arguments N.pow : simpl never.

(** records of a registrable set are small *)
Lemma payload_small dc m : record_of dc m -> (length (payload_bytes m) <= 8 * length (dc_items dc))%nat.
Proof.
  intros [_ [_ [Ht _]]]. apply (f_equal (@length _)) in Ht. rewrite !map_length in Ht. rewrite <- Ht.
  unfold payload_bytes. clear Ht. induction (m_items m) as [|tv r IH]; [cbn; lia|].
  cbn [flat_map length]. rewrite app_length. unfold item_bytes at 1. rewrite le_bytes_length.
  assert (type_size (fst tv) <= 8)%nat by (destruct (fst tv); cbn; lia). lia.
Qed.

Lemma header_items_bound cfg hdr dc : cfg <> [] -> Forall wf_config cfg -> write_header cfg = Some hdr ->
  In dc cfg -> (length (dc_items dc) <= 4096)%nat.
Proof.
  intros Hne Hwf Hw Hin. destruct (write_header_shape cfg hdr Hne Hw) as [pre [c [_ [_ [Ep Hl]]]]].
  apply (f_equal (@length _)) in Ep. rewrite !app_length, !le32_length in Ep.
  unfold header_body in Ep. rewrite !app_length, !le32_length in Ep.
  assert (X : (length (dc_items dc) <= length (flat_map dataset_header cfg))%nat).
  { clear -Hwf Hin. induction Hwf as [|x r Hx Hr IH]; [destruct Hin|].
    cbn [flat_map]. rewrite app_length, dataset_header_length by auto.
    destruct Hin as [->|Hin]; [lia|]. specialize (IH Hin). lia. }
  lia.
Qed.

Lemma all_small cfg hdr ms : cfg <> [] -> Forall wf_config cfg -> write_header cfg = Some hdr ->
  Forall (fun m => exists dc, In dc cfg /\ record_of dc m) ms -> Forall small ms.
Proof.
  intros Hne Hwf Hw H. eapply Forall_impl; [|apply H]. cbn. intros m [dc [Hin Hr]].
  unfold small. pose proof (payload_small dc m Hr).
  pose proof (header_items_bound cfg hdr dc Hne Hwf Hw Hin).
  change (2^32) with 4294967296. lia.
Qed.

(** state in which the frames are scanned *)
Definition started (cfg : list dataset_config) (hdr : list N) (st0 : loader) : loader :=
  {| l_data := l_data st0; l_cfgs := add_cfgs cfg (l_cfgs st0); l_version := RECORDER_VERSION_BITS;
     l_file_offset := N.of_nat (length hdr - 4); l_header_size := N.of_nat (length hdr - 4);
     l_err := E_OK; l_errs := add_errs cfg (l_errs st0); l_strs := [] |}.

Lemma hdr_len cfg hdr : cfg <> [] -> write_header cfg = Some hdr -> (16 <= length hdr)%nat.
Proof.
  intros Hne Hw. destruct (write_header_shape cfg hdr Hne Hw) as [pre [c [Eh [_ [Ep _]]]]].
  rewrite Eh, !app_length, !le32_length. apply (f_equal (@length _)) in Ep.
  rewrite !app_length, !le32_length in Ep. lia.
Qed.

Lemma load_file_header cfg hdr post st0 fuel : cfg <> [] -> Forall wf_config cfg ->
  write_header cfg = Some hdr ->
  load_file fuel (Some (hdr ++ post)) st0 = run fuel (hdr ++ post) (started cfg hdr st0).
Proof.
  intros Hne Hwf Hw. unfold load_file.
  rewrite (load_header_ok cfg hdr post _ Hne Hwf Hw).
  pose proof (hdr_len cfg hdr Hne Hw).
  destruct (N.eqb_spec (N.of_nat (length hdr - 4)) 0); [lia|]. reflexivity.
Qed.

Lemma load_start cfg hdr tl st0 k : cfg <> [] -> Forall wf_config cfg ->
  write_header cfg = Some hdr ->
  load_file (4 + k) (Some (hdr ++ le32 RECORDER_HEADER ++ tl)) st0
  = run k (hdr ++ le32 RECORDER_HEADER ++ tl) (set_offset (N.of_nat (length hdr)) (started cfg hdr st0)).
Proof.
  intros Hne Hwf Hw. rewrite (load_file_header cfg) by auto.
  pose proof (hdr_len cfg hdr Hne Hw) as Hl.
  destruct (write_header_shape cfg hdr Hne Hw) as [pre [c [Eh _]]].
  assert (E : hdr ++ le32 RECORDER_HEADER ++ tl =
     (pre ++ le32 (REVERT_CRC32 c)) ++ le32 RECORDER_HEADER_END_MARK ++ le32 RECORDER_HEADER ++ tl)
    by (rewrite Eh, <- !app_assoc; reflexivity).
  rewrite E. rewrite resync.
  - f_equal. f_equal. rewrite Eh, !app_length, !le32_length. lia.
  - cbn [started l_file_offset]. rewrite Eh, !app_length, !le32_length. lia.
Qed.

(** frames begin with the start mark *)
Lemma frames_start m ms olds fs : small m -> frames (m :: ms) olds = Some fs ->
  exists tl, fs = le32 RECORDER_HEADER ++ tl.
Proof.
  intros Hs Hf. destruct olds as [|o olds]; [discriminate|]. cbn [frames] in Hf.
  destruct (record_bytes_shape m o Hs) as [c [_ [_ Ef]]]. rewrite Ef in Hf.
  destruct (frames ms olds); [|discriminate]. apply some_inj in Hf. subst fs.
  unfold msg_prefix. rewrite <- !app_assoc. eexists. reflexivity.
Qed.

Lemma cfgs_found cfg m : NoDup (map dc_id cfg) ->
  (forall dc, In dc cfg -> find (dc_id dc) m = None \/ find (dc_id dc) m = Some (expected_cfg dc)) ->
  forall dc, In dc cfg -> find (dc_id dc) (add_cfgs cfg m) = Some (expected_cfg dc).
Proof.
  intros Hnd Hm dc Hin. rewrite find_add_cfgs.
  destruct (Hm dc Hin) as [-> | ->]; [|reflexivity].
  assert (F : List.find (fun x => dc_id x =? dc_id dc) cfg = Some dc); [|now rewrite F].
  clear Hm. induction cfg as [|x r IH]; [destruct Hin|].
  cbn [List.find]. destruct (N.eqb_spec (dc_id x) (dc_id dc)) as [E|E].
  - f_equal. eapply nodup_id; eauto. now left.
  - destruct Hin as [->|Hin]; [congruence|]. apply IH; auto. cbn in Hnd. now inversion Hnd.
Qed.

(** *** Round trip, from any loader state that already holds records [done] of these sets *)
Lemma round_trip_gen cfg hdr ms olds fs done st0 :
  cfg <> [] -> Forall wf_config cfg -> NoDup (map dc_id cfg) -> write_header cfg = Some hdr ->
  ms <> [] -> Forall (fun m => exists dc, In dc cfg /\ record_of dc m) ms ->
  frames ms olds = Some fs ->
  (forall dc, In dc cfg -> find (dc_id dc) (l_cfgs st0) = None \/
                           find (dc_id dc) (l_cfgs st0) = Some (expected_cfg dc)) ->
  holds cfg done st0 -> none_else cfg st0 ->
  exists st, returns (Some (hdr ++ fs)) st0 st /\
    holds cfg (done ++ ms) st /\ none_else cfg st /\ l_err st = E_OK /\ l_strs st = [] /\
    l_version st = RECORDER_VERSION_BITS /\ l_cfgs st = add_cfgs cfg (l_cfgs st0) /\
    l_errs st = add_errs cfg (l_errs st0).
Proof.
  intros Hne Hwf Hnd Hw Hms Hrec Hfr Hc Hh Hn.
  pose proof (all_small cfg hdr ms Hne Hwf Hw Hrec) as Hsm.
  destruct ms as [|m ms]; [congruence|].
  destruct (frames_start m ms olds fs) as [tl Htl]; [now inversion Hsm|auto|].
  set (st1 := set_offset (N.of_nat (length hdr)) (started cfg hdr st0)).
  destruct (run_frames cfg Hwf Hnd (m :: ms) olds done fs hdr st1)
    as [st' [Hr [A1 [A2 [A3 [A4 [A5 [A6 [A7 A8]]]]]]]]]; auto.
  { intros dc Hin. unfold st1. cbn [set_offset started l_cfgs]. now apply cfgs_found. }
  exists st'. split.
  - exists (4 + (length (m :: ms) + 1))%nat.
    rewrite Htl at 1. rewrite (load_start cfg) by auto. rewrite <- Htl. fold st1.
    specialize (Hr [] 1%nat). rewrite app_nil_r in Hr. rewrite Hr. cbn [run]. unfold scan_step. rewrite A8.
    destruct (N.ltb_spec (N.of_nat (length (hdr ++ fs))) (N.of_nat (length (hdr ++ fs)))); [lia|].
    reflexivity.
  - rewrite A3, A4, A6, A5, A7. auto 10.
Qed.

(** *** A recording without records makes the loader read outside the file *)
Lemma header_only_oob cfg hdr st0 : cfg <> [] -> Forall wf_config cfg -> write_header cfg = Some hdr ->
  reads_outside (Some hdr) st0.
Proof.
  intros Hne Hwf Hw. exists 2%nat. rewrite <- (app_nil_r hdr).
  rewrite (load_file_header cfg) by auto. rewrite app_nil_r.
  destruct (write_header_shape cfg hdr Hne Hw) as [pre [c [Eh _]]].
  set (pre' := pre ++ le32 (REVERT_CRC32 c)).
  assert (E : hdr = pre' ++ [0x88; 0xBB; 0x77; 0xBB])
    by (unfold pre'; rewrite Eh, le32_endmark, <- app_assoc; reflexivity).
  assert (L : length hdr = (length pre' + 4)%nat) by (rewrite E, app_length; reflexivity).
  assert (O : l_file_offset (started cfg hdr st0) = N.of_nat (length pre')) by (cbn; rewrite L; lia).
  erewrite run_S.
  2:{ eapply scan_skip; [rewrite O, L; lia| |].
      - rewrite O, E. apply rd32_at.
      - vm_compute. discriminate. }
  cbn [run]. unfold scan_step. cbn [set_offset l_file_offset]. rewrite O.
  destruct (N.ltb_spec (N.of_nat (length pre') + 1) (N.of_nat (length hdr))); [|lia]. cbn [negb].
  unfold rd32, slice.
  destruct (N.leb_spec (N.of_nat (length pre') + 1 + 4) (N.of_nat (length hdr))); [lia|].
  reflexivity.
Qed.

(** *** A frame that fails its checksum is never left *)
Definition bad_frame (buf : list N) (off : N) : Prop :=
  off < N.of_nat (length buf) /\ rd32 buf off = Ret RECORDER_HEADER /\
  exists ml crc, rd32 buf (off + 16) = Ret ml /\ crc_range buf off (u32 (ml + 2^32 - 4)) = Ret crc /\ crc <> 0.

Lemma stuck buf st : bad_frame buf (l_file_offset st) -> forall fuel, run fuel buf st = None.
Proof.
  intros [H1 [H2 [ml [crc [H3 [H4 H5]]]]]] fuel. revert st H1 H2 H3 H4.
  induction fuel; intros; [reflexivity|].
  cbn [run]. unfold scan_step at 1.
  destruct (N.ltb_spec (l_file_offset st) (N.of_nat (length buf))); [|lia]. cbn [negb].
  rewrite H2. cbn [bind]. rewrite N.eqb_refl. cbn [negb]. rewrite H3. cbn [bind]. rewrite H4. cbn [bind].
  destruct (N.eqb_spec crc 0); [congruence|]. cbn [negb].
  apply IHfuel; auto.
Qed.

Lemma run_mono k buf st r : run k buf st = Some r -> forall j, run (k + j) buf st = Some r.
Proof.
  revert st. induction k; intros st H j; [discriminate|].
  cbn [Nat.add run] in *. destruct (scan_step buf st) as [[|st']|]; auto.
Qed.

Lemma hangs_after buf st n st' : (forall k, run (n + k) buf st = run k buf st') ->
  (forall k, run k buf st' = None) -> forall k, run k buf st = None.
Proof.
  intros H1 H2 k. destruct (run k buf st) as [r|] eqn:E; auto.
  pose proof (run_mono _ _ _ _ E n) as M. rewrite Nat.add_comm, H1, H2 in M. discriminate.
Qed.

Lemma load_mono k file st0 r : load_file k file st0 = Some r -> forall j, load_file (k + j) file st0 = Some r.
Proof.
  unfold load_file. intros H j. destruct file as [buf|]; auto.
  destruct (load_header buf (set_err E_OK (clear_strs st0))) as [[st1 off]|]; auto.
  destruct (off =? 0); auto. now apply run_mono.
Qed.

(** corruption of one record *)
Lemma corrupted_hangs cfg hdr ms olds fs dc m old f f' post :
  cfg <> [] -> Forall wf_config cfg -> NoDup (map dc_id cfg) -> write_header cfg = Some hdr ->
  Forall (fun m => exists dc, In dc cfg /\ record_of dc m) ms -> frames ms olds = Some fs ->
  In dc cfg -> record_of dc m -> record_bytes m old = Some f ->
  length f' = length f -> bytes f' ->
  sub f' 0 4 = sub f 0 4 -> sub f' 16 4 = sub f 16 4 ->
  burst32 (sub f 0 (length f - 4)) (sub f' 0 (length f - 4)) ->
  hangs (Some (hdr ++ fs ++ f' ++ post)) new_loader.
Proof.
  intros Hne Hwf Hnd Hw Hrec Hfr Hdc Hm Hf Lf' Bf' H04 H16 Hburst.
  pose proof (all_small cfg hdr ms Hne Hwf Hw Hrec) as Hsm.
  assert (Hs : small m).
  { pose proof (all_small cfg hdr [m] Hne Hwf Hw) as X.
    assert (Y : Forall small [m]) by (apply X; constructor; eauto). now inversion Y. }
  destruct (record_bytes_shape m old Hs) as [c [Hc [Ec Ef]]].
  rewrite Ef in Hf. apply some_inj in Hf.
  assert (Lf : length f = (28 + length (payload_bytes m))%nat) by (subst f; apply frame_length).
  assert (Hsz : u32 (msg_sizeof m) = N.of_nat (length f)).
  { unfold small in Hs. unfold msg_sizeof. rewrite u32_id by lia. lia. }
  assert (Hsz32 : N.of_nat (length f) < 2^32) by (unfold small in Hs; lia).
  assert (F04 : sub f 0 4 = le32 RECORDER_HEADER).
  { assert (E : slice ([] ++ f ++ []) 0 4 = Ret (le32 RECORDER_HEADER)).
    { rewrite app_nil_r. subst f. unfold msg_prefix. rewrite <- !app_assoc. 
      apply slice_mid; [reflexivity|now rewrite le32_length]. }
    pose proof (slice_sub [] f [] 0 4) as E'. cbn [length N.of_nat N.add Pos.of_succ_nat Pos.succ] in E'.
    rewrite E in E'. assert (X : Ret (le32 RECORDER_HEADER) = Ret (sub f 0 4)) by (apply E'; lia).
    now inversion X. }
  assert (F16 : sub f 16 4 = le32 (N.of_nat (length f))).
  { assert (E : slice ([] ++ f ++ []) 16 4 = Ret (le32 (N.of_nat (length f)))).
    { rewrite app_nil_r, <- Hsz. cbn [app]. subst f. unfold msg_prefix. rewrite <- !app_assoc.
      rewrite (app_assoc (le32 RECORDER_HEADER)), (app_assoc (le32 RECORDER_HEADER ++ _)).
      apply slice_mid; [|now rewrite le32_length].
      rewrite !app_length, !le32_length, le_bytes_length. reflexivity. }
    pose proof (slice_sub [] f [] 16 4) as E'. cbn [length N.of_nat N.add Pos.of_succ_nat Pos.succ] in E'.
    rewrite E in E'. assert (X : Ret (le32 (N.of_nat (length f))) = Ret (sub f 16 4)) by (apply E'; lia).
    now inversion X. }
  assert (Hf'd : f' = le32 RECORDER_HEADER ++ skipn 4 f').
  { rewrite <- (firstn_skipn 4 f') at 1. f_equal. rewrite <- F04, <- H04. reflexivity. }
  assert (Tl : exists tl, fs ++ f' ++ post = le32 RECORDER_HEADER ++ tl).
  { destruct ms as [|m0 ms].
    - cbn in Hfr. apply some_inj in Hfr. subst fs. rewrite Hf'd. rewrite <- !app_assoc. eexists. reflexivity.
    - destruct (frames_start m0 ms olds fs) as [tl ->]; [now inversion Hsm|auto|].
      rewrite <- !app_assoc. eexists. reflexivity. }
  destruct Tl as [tl Htl].
  set (st1 := set_offset (N.of_nat (length hdr)) (started cfg hdr new_loader)).
  destruct (run_frames cfg Hwf Hnd ms olds [] fs hdr st1)
        as [st' [Hr [_ [_ [_ [_ [_ [_ [_ A8]]]]]]]]]; auto.
  { intros dc' Hin. unfold st1. cbn [set_offset started l_cfgs]. apply cfgs_found; auto. }
  { intros dc' Hin. reflexivity. }
  { intros id Hid. reflexivity. }
  assert (Bad : bad_frame (hdr ++ fs ++ f' ++ post) (l_file_offset st')).
  { rewrite A8. rewrite (app_assoc hdr). set (pre := hdr ++ fs).
    assert (S : forall i n, (i + n <= length f)%nat ->
       slice (pre ++ f' ++ post) (N.of_nat (length pre) + N.of_nat i) (N.of_nat n) = Ret (sub f' i n))
      by (intros; apply slice_sub; lia).
    pose proof (S 0%nat 4%nat) as S0. pose proof (S 16%nat 4%nat) as S16.
    pose proof (S 0%nat (length f - 4)%nat) as Sc.
    change (N.of_nat 0) with 0 in *. rewrite N.add_0_r in *.
    change (N.of_nat 4) with 4 in *. change (N.of_nat 16) with 16 in *.
    unfold bad_frame, rd32, crc_range.
    rewrite S0 by lia. rewrite S16 by lia. cbn [bind]. rewrite H04, F04, H16, F16.
    rewrite !of_le32 by (auto; reflexivity).
    split; [|split; [reflexivity|]].
    - rewrite !app_length. lia.
    - exists (N.of_nat (length f)).
      rewrite u32_sub by lia.
      replace (N.of_nat (length f) - 4) with (N.of_nat (length f - 4)) by lia.
      rewrite Sc by lia. cbn [bind].
      assert (Bs : bytes (sub f' 0 (length f - 4))).
      { unfold sub. cbn [skipn]. apply Forall_forall. intros x Hx. 
        unfold bytes in Bf'. rewrite Forall_forall in Bf'. apply Bf'.
        rewrite <- (firstn_skipn (length f - 4) f'). apply in_or_app. now left. }
      rewrite crc32_table_soft by auto. eexists. split; [reflexivity|]. split; [reflexivity|].
      intro Z.
      assert (Es : sub f 0 (length f - 4) = msg_prefix m ++ be32 c).
      { unfold sub. cbn [skipn]. rewrite <- Hf at 2. rewrite app_assoc.
        rewrite firstn_app. rewrite firstn_all2.
        - rewrite app_length, msg_prefix_length. cbn [be32 length].
          replace (length f - 4 - (20 + length (payload_bytes m) + 4))%nat with 0%nat by lia.
          cbn [firstn]. apply app_nil_r.
        - rewrite app_length, msg_prefix_length. cbn [be32 length]. lia. }
      apply (burst_detected _ _) in Hburst; auto.
      + apply Hburst. rewrite crc32_table_soft by auto. now rewrite Z.
      + rewrite Es. apply bytes_app. split; [apply msg_prefix_bytes|now apply be32_bytes].
      + rewrite Es. apply residue_iff; auto. apply msg_prefix_bytes. }
  assert (R1 : forall k, run k (hdr ++ fs ++ f' ++ post) st1 = None).
  { eapply hangs_after; [intro k; apply Hr|]. now apply stuck. }
  intro fuel. destruct (load_file fuel (Some (hdr ++ fs ++ f' ++ post)) new_loader) as [r|] eqn:E; auto.
  pose proof (load_mono _ _ _ _ E 4) as M. rewrite Nat.add_comm in M.
  rewrite Htl, (load_start cfg), <- Htl in M by auto. fold st1 in M. rewrite R1 in M. discriminate.
Qed.
