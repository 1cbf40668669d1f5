From Coq Require Import NArith ZArith List Lia Bool.
From Verif Require Import CrcModel CrcSpec CrcProofs RecorderModel LoaderModel LoaderSpec LoaderProofs.
Import ListNotations.
Open Scope N_scope.

Local Opaque crc32_table le32 N.pow.
Arguments N.pow : simpl never.

Definition small (m : message) : Prop := 28 + N.of_nat (length (payload_bytes m)) < 2^32.

Lemma payload_bytes_bytes m : bytes (payload_bytes m).
Proof.
  unfold payload_bytes. apply (flat_map_bytes _ (fun _ => True)).
  - intros. apply le_bytes_bytes.
  - apply Forall_forall. auto.
Qed.

Lemma msg_prefix_bytes m : bytes (msg_prefix m).
Proof.
  unfold msg_prefix. rewrite !bytes_app. repeat split; auto using le32_bytes, le_bytes_bytes, payload_bytes_bytes.
Qed.

Lemma msg_prefix_length m : length (msg_prefix m) = (20 + length (payload_bytes m))%nat.
Proof. unfold msg_prefix. rewrite !app_length, !le32_length, le_bytes_length. lia. Qed.

Lemma u32_sub n k : k <= n -> n < 2^32 -> u32 (n + 2^32 - k) = n - k.
Proof.
  intros. rewrite u32_mod. replace (n + 2^32 - k) with (n - k + 1 * 2^32) by lia.
  rewrite N.mod_add by discriminate. apply N.mod_small. lia.
Qed.

(** the frame a record produces *)
Lemma record_bytes_shape m old : small m ->
  exists c, c < 2^32 /\ crc32_table (msg_prefix m) = Some c /\
    record_bytes m old = Some (msg_prefix m ++ be32 c ++ le32 RECORDER_END_MARK).
Proof.
  intro Hs. pose proof (crc32_table_soft _ (msg_prefix_bytes m)) as Ec.
  exists (crc32_soft (msg_prefix m)). pose proof (crc32_soft_lt (msg_prefix m)) as Hlt.
  split; [exact Hlt|]. split; [exact Ec|].
  unfold record_bytes, CHECKSUM_RECORDER_CRC32.
  assert (Hn : u32 (u32 (msg_sizeof m) + 2^32 - 8) = N.of_nat (length (msg_prefix m))).
  { unfold small in Hs. unfold msg_sizeof. rewrite msg_prefix_length.
    rewrite (u32_id (20 + _ + 8)) by lia. rewrite u32_sub by lia. lia. }
  rewrite Hn, Nat2N.id.
  rewrite firstn_app, firstn_all, Nat.sub_diag. cbn [firstn]. rewrite app_nil_r, Ec.
  rewrite le32_revert by auto. reflexivity.
Qed.

Lemma frame_length m c : length (msg_prefix m ++ be32 c ++ le32 RECORDER_END_MARK) = (28 + length (payload_bytes m))%nat.
Proof. rewrite !app_length, le32_length, msg_prefix_length. cbn. lia. Qed.

(** values read from a payload *)
Lemma struct_ok its : forall tvs pre post rv o,
  map type_of_code (map li_type its) = map (fun tv => Some (fst tv)) tvs ->
  Forall (fun tv => snd tv < 2^(8 * N.of_nat (type_size (fst tv)))) tvs ->
  structMember2Float (pre ++ flat_map item_bytes tvs ++ post) (N.of_nat (length pre)) its rv o
  = Ret (map shown tvs, N.of_nat (length (flat_map item_bytes tvs))).
Proof.
  induction its as [|it r IH]; intros [|tv tvs] pre post rv o Ht Hv; try discriminate Ht.
  - reflexivity.
  - cbn [map] in Ht. injection Ht as Ht1 Ht2. inversion Hv as [|? ? Hv1 Hv2]; subst.
    cbn [structMember2Float flat_map]. rewrite Ht1.
    rewrite <- app_assoc.
    rewrite slice_mid by (auto; unfold item_bytes; now rewrite le_bytes_length).
    cbn [bind fst snd].
    rewrite (app_assoc pre).
    replace (N.of_nat (length pre) + N.of_nat (type_size (fst tv)))
      with (N.of_nat (length (pre ++ item_bytes tv)))
      by (rewrite app_length; unfold item_bytes; rewrite le_bytes_length; lia).
    rewrite IH by auto. cbn [bind fst snd map].
    unfold shown at 1. unfold item_bytes at 1. rewrite of_le_bytes by auto.
    do 2 f_equal. rewrite app_length. unfold item_bytes at 2. rewrite le_bytes_length. lia.
Qed.

Lemma push_cols_seq (f : nat -> list value) vals : forall s,
  push_cols (map f (seq s (length vals))) vals
  = Ret (map (fun j => f j ++ [nth (j - s) vals (VF32 0)]) (seq s (length vals))).
Proof.
  induction vals as [|v vs IH]; intro s; [reflexivity|].
  cbn [length seq map push_cols]. rewrite IH. cbn [bind].
  do 2 f_equal. 
  - now rewrite Nat.sub_diag.
  - apply map_ext_in. intros j Hj. apply in_seq in Hj.
    replace (j - s)%nat with (S (j - S s)) by lia. reflexivity.
Qed.

Lemma expected_snoc dc ms m : record_of dc m ->
  push_cols (d_cols (expected dc ms)) (map shown (m_items m)) = Ret (d_cols (expected dc (ms ++ [m]))).
Proof.
  intros [_ [_ [Ht _]]]. cbn [expected d_cols].
  assert (L : length (dc_items dc) = length (map shown (m_items m))).
  { rewrite map_length. apply (f_equal (@length _)) in Ht. rewrite !map_length in Ht. auto. }
  rewrite L, push_cols_seq. f_equal. apply map_ext_in. intros j Hj.
  rewrite map_app. cbn [map]. do 2 f_equal. rewrite Nat.sub_0_r.
  apply in_seq in Hj. rewrite (nth_indep _ _ (shown (Tu8, 0))) by lia. apply map_nth.
Qed.

Lemma new_dataset_ok dc : wf_config dc ->
  new_dataset (dc_id dc) (expected_cfg dc) = Ret (expected dc []).
Proof.
  intros [_ [[_ [_ Hz]] Hi]]. unfold new_dataset, expected_cfg. cbn [lc_name lc_items lc_item_cnt].
  rewrite c_str_string by auto. cbn [bind]. rewrite map_map. cbn [li_name].
  rewrite c_strs_string.
  - cbn [bind]. unfold expected. cbn [map]. rewrite !map_map. do 2 f_equal.
    generalize 0%nat. induction (dc_items dc); intro k; [reflexivity|].
    inversion Hi; subst. cbn. f_equal. apply IHl. auto.
  - clear -Hi. induction Hi; [constructor|]. cbn [map]. constructor; auto. apply H.
Qed.

Lemma expected_cfg_types dc m : record_of dc m ->
  map type_of_code (map li_type (lc_items (expected_cfg dc))) = map (fun tv => Some (fst tv)) (m_items m).
Proof.
  intros [_ [_ [Ht _]]]. unfold expected_cfg. cbn [lc_items]. rewrite !map_map. cbn [li_type].
  rewrite <- (map_map fst Some), Ht, map_map.
  apply map_ext. intros. apply type_of_code_code.
Qed.

(** state after delivering record [m] of data set [dc] that had records [old] before *)
Definition delivered (dc : dataset_config) (old : list message) (m : message) (off : N) (st : loader) : loader :=
  {| l_data := assign (dc_id dc) (expected dc (old ++ [m])) (l_data st); l_cfgs := l_cfgs st;
     l_version := l_version st; l_file_offset := off;
     l_header_size := l_header_size st; l_err := l_err st; l_errs := l_errs st; l_strs := l_strs st |}.

Lemma scan_frame dc m old_cs pre f post st old :
  wf_config dc -> record_of dc m -> small m ->
  record_bytes m old_cs = Some f ->
  find (dc_id dc) (l_cfgs st) = Some (expected_cfg dc) ->
  find (dc_id dc) (l_data st) = (match old with [] => None | _ => Some (expected dc old) end) ->
  l_file_offset st = N.of_nat (length pre) ->
  scan_step (pre ++ f ++ post) st =
    Ret (Next (delivered dc old m (N.of_nat (length pre + length f)) st)).
Proof.
  intros Hwf Hrec Hs Hf Hcfg Hdata Hoff.
  destruct (record_bytes_shape m old_cs Hs) as [c [Hc [Ec Ef]]].
  rewrite Ef in Hf. apply some_inj in Hf.
  assert (Lf : length f = (28 + length (payload_bytes m))%nat) by (subst f; apply frame_length).
  pose proof Hrec as [Hid [Hts [Hty Hval]]].
  assert (Hid32 : m_id m < 2^32) by (rewrite Hid; apply Hwf).
  unfold scan_step. rewrite Hoff.
  destruct (N.ltb_spec (N.of_nat (length pre)) (N.of_nat (length (pre ++ f ++ post)))) as [_|B];
    [|rewrite !app_length, Lf in B; lia].
  cbn [negb].
  set (P := payload_bytes m) in *.
  assert (Esz : u32 (msg_sizeof m) = N.of_nat (length f)).
  { unfold small in Hs. fold P in Hs. unfold msg_sizeof. fold P. rewrite u32_id by lia. lia. }
  assert (Hsz : N.of_nat (length f) < 2^32) by (unfold small in Hs; fold P in Hs; lia).
  set (tail := be32 c ++ le32 RECORDER_END_MARK) in *.
  assert (E1 : pre ++ f ++ post = pre ++ le32 RECORDER_HEADER ++
     (le32 (m_id m) ++ le_bytes 8 (m_timestamp m) ++ le32 (N.of_nat (length f)) ++ P ++ tail ++ post)).
  { subst f. unfold msg_prefix. rewrite Esz. fold P. rewrite <- !app_assoc. reflexivity. }
  rewrite E1 at 1. rewrite rd32_mid by reflexivity. cbn [bind]. rewrite N.eqb_refl. cbn [negb].
  assert (E2 : pre ++ f ++ post = (pre ++ le32 RECORDER_HEADER) ++ le32 (m_id m) ++
     (le_bytes 8 (m_timestamp m) ++ le32 (N.of_nat (length f)) ++ P ++ tail ++ post)).
  { rewrite E1, <- !app_assoc. reflexivity. }
  assert (E3 : pre ++ f ++ post = ((pre ++ le32 RECORDER_HEADER) ++ le32 (m_id m)) ++
     le_bytes 8 (m_timestamp m) ++ (le32 (N.of_nat (length f)) ++ P ++ tail ++ post)).
  { rewrite E1, <- !app_assoc. reflexivity. }
  assert (E4 : pre ++ f ++ post = (((pre ++ le32 RECORDER_HEADER) ++ le32 (m_id m)) ++
     le_bytes 8 (m_timestamp m)) ++ le32 (N.of_nat (length f)) ++ (P ++ tail ++ post)).
  { rewrite E1, <- !app_assoc. reflexivity. }
  assert (E5 : pre ++ f ++ post = ((((pre ++ le32 RECORDER_HEADER) ++ le32 (m_id m)) ++
     le_bytes 8 (m_timestamp m)) ++ le32 (N.of_nat (length f))) ++ P ++ (tail ++ post)).
  { rewrite E1, <- !app_assoc. reflexivity. }
  assert (E6 : pre ++ f ++ post = pre ++ (msg_prefix m ++ be32 c) ++ (le32 RECORDER_END_MARK ++ post)).
  { subst f. unfold tail. rewrite <- !app_assoc. reflexivity. }
  assert (R16 : rd32 (pre ++ f ++ post) (N.of_nat (length pre) + 16) = Ret (N.of_nat (length f))).
  { rewrite E4. apply rd32_mid; auto. rewrite !app_length, !le32_length, le_bytes_length. lia. }
  rewrite R16. cbn [bind].
  rewrite u32_sub by lia.
  rewrite E6 at 1. rewrite (crc_range_mid _ _ _ _ _ 0); auto;
    [|rewrite app_length, msg_prefix_length; fold P; cbn [be32 length]; lia
     |apply residue_iff; auto; apply msg_prefix_bytes].
  cbn [bind]. rewrite N.eqb_refl. cbn [negb].
  rewrite E2 at 1. rewrite rd32_mid by (auto; rewrite app_length, le32_length; lia). cbn [bind].
  unfold add_data. cbn [set_offset l_cfgs l_data].
  rewrite Hid, Hcfg.
  assert (Eds : match find (dc_id dc) (l_data st) with
                | Some d => Ret d | None => new_dataset (dc_id dc) (expected_cfg dc) end = Ret (expected dc old)).
  { rewrite Hdata. destruct old; [now apply new_dataset_ok|reflexivity]. }
  rewrite Eds. cbn [bind].
  rewrite E3 at 1. rewrite slice_mid by (rewrite ?app_length, ?le32_length, ?le_bytes_length; lia).
  cbn [bind].
  replace (N.of_nat (length pre) + 20) with
    (N.of_nat (length ((((pre ++ le32 RECORDER_HEADER) ++ le32 (m_id m)) ++
     le_bytes 8 (m_timestamp m)) ++ le32 (N.of_nat (length f)))))
    by (rewrite !app_length, !le32_length, le_bytes_length; lia).
  rewrite E5 at 1. unfold P, payload_bytes. rewrite struct_ok by (auto; now apply expected_cfg_types).
  cbn [bind fst snd]. rewrite R16. cbn [bind].
  rewrite expected_snoc by auto. cbn [bind].
  fold (payload_bytes m). fold P.
  replace (32 + N.of_nat (length P) + 2^32 - 4) with (28 + N.of_nat (length P) + 1 * 2^32) by lia.
  rewrite u32_mod, N.mod_add, N.mod_small by (try discriminate; unfold small in Hs; fold P in Hs; lia).
  destruct (N.eqb_spec (N.of_nat (length f)) (28 + N.of_nat (length P))) as [_|B]; [|lia].
  cbn [negb]. unfold delivered. do 3 f_equal.
  - do 2 f_equal. unfold expected. cbn [d_id d_cnt d_name d_subs d_time d_cols].
    f_equal. rewrite map_app. cbn [map]. do 2 f_equal. apply of_le_bytes. exact Hts.
  - cbn [set_offset l_file_offset]. lia.
Qed.

Lemma slice_sub pre f post i n :
  (i + n <= length f)%nat ->
  slice (pre ++ f ++ post) (N.of_nat (length pre) + N.of_nat i) (N.of_nat n) = Ret (sub f i n).
Proof.
  intro H. unfold slice. rewrite !app_length.
  destruct (N.leb_spec (N.of_nat (length pre) + N.of_nat i + N.of_nat n)
    (N.of_nat (length pre + (length f + length post)))); [|lia].
  f_equal. unfold sub. replace (N.to_nat (N.of_nat (length pre) + N.of_nat i)) with (length pre + i)%nat by lia.
  rewrite Nat2N.id. rewrite skipn_app, skipn_all2 by lia. cbn [app].
  replace (length pre + i - length pre)%nat with i by lia.
  rewrite skipn_app, firstn_app, skipn_length.
  replace (n - (length f - i))%nat with 0%nat by lia. cbn [firstn]. apply app_nil_r.
Qed.

(** ** the whole recording *)
Lemma of_id_app id a b : of_id id (a ++ b) = of_id id a ++ of_id id b.
Proof. apply filter_app. Qed.

Lemma nodup_id cfg dc dc' : NoDup (map dc_id cfg) -> In dc cfg -> In dc' cfg ->
  dc_id dc = dc_id dc' -> dc = dc'.
Proof.
  induction cfg as [|x r IH]; intros Hn H H' E; [destruct H|].
  cbn [map] in Hn. inversion Hn; subst.
  destruct H as [->|H], H' as [->|H']; auto.
  - exfalso. apply H2. rewrite E. now apply in_map.
  - exfalso. apply H2. rewrite <- E. now apply in_map.
Qed.

Lemma run_frames cfg : Forall wf_config cfg -> NoDup (map dc_id cfg) ->
  forall ms olds done fs pre st,
  Forall (fun m => exists dc, In dc cfg /\ record_of dc m) ms ->
  Forall small ms ->
  frames ms olds = Some fs ->
  (forall dc, In dc cfg -> find (dc_id dc) (l_cfgs st) = Some (expected_cfg dc)) ->
  holds cfg done st -> none_else cfg st ->
  l_file_offset st = N.of_nat (length pre) ->
  exists st', (forall post k, run (length ms + k) (pre ++ fs ++ post) st = run k (pre ++ fs ++ post) st') /\
    holds cfg (done ++ ms) st' /\ none_else cfg st' /\
    l_err st' = l_err st /\ l_strs st' = l_strs st /\ l_cfgs st' = l_cfgs st /\
    l_version st' = l_version st /\ l_errs st' = l_errs st /\
    l_file_offset st' = N.of_nat (length (pre ++ fs)).
Proof.
  intros Hwf Hnd. induction ms as [|m ms IH]; intros olds done fs pre st Hrec Hsm Hfr Hcf Hh Hn Hoff.
  - cbn [frames] in Hfr. apply some_inj in Hfr. subst fs. rewrite !app_nil_r. exists st.
    cbn [length Nat.add app]. auto 10.
  - destruct olds as [|o olds]; [discriminate|]. cbn [frames] in Hfr.
    destruct (record_bytes m o) as [f|] eqn:Ef; [|discriminate].
    destruct (frames ms olds) as [fs'|] eqn:Efs; [|discriminate].
    apply some_inj in Hfr. subst fs.
    inversion Hrec as [|? ? [dc [Hdc Hm]] Hrec']; subst.
    inversion Hsm as [|? ? Hsm1 Hsm2]; subst.
    assert (Wdc : wf_config dc) by (rewrite Forall_forall in Hwf; auto).
    pose proof Hm as [Hid _].
    destruct (IH olds (done ++ [m]) fs' (pre ++ f) (delivered dc (of_id (dc_id dc) done) m (N.of_nat (length pre + length f)) st))
      as [st' [Hr [A1 [A2 [A3 [A4 [A5 [A6 [A7 A8]]]]]]]]]; auto.
    + intros dc' Hdc'. cbn [delivered l_data]. rewrite find_assign, of_id_app.
      cbn [of_id filter]. rewrite Hid.
      destruct (N.eqb_spec (dc_id dc) (dc_id dc')) as [E|E].
      * apply (nodup_id cfg) in E; auto. subst dc'.
        fold (of_id (dc_id dc) done). destruct (of_id (dc_id dc) done); reflexivity.
      * rewrite app_nil_r. now apply Hh.
    + intros id Hid'. cbn [delivered l_data]. rewrite find_assign.
      destruct (N.eqb_spec (dc_id dc) id) as [E|E]; [|now apply Hn].
      exfalso. apply Hid'. rewrite <- E. now apply in_map.
    + cbn [delivered l_file_offset]. rewrite app_length. reflexivity.
    + exists st'. rewrite <- app_assoc in A1. cbn [app] in A1.
      rewrite (app_assoc pre f fs'). split; [|auto 10].
      intros post k. cbn [length Nat.add run]. rewrite <- !app_assoc.
      rewrite (scan_frame dc m o pre f (fs' ++ post) st (of_id (dc_id dc) done)) by auto.
      rewrite (app_assoc pre). apply Hr.
Qed.

(** resynchronisation over the end mark of the header *)
Lemma scan_skip buf st x : l_file_offset st < N.of_nat (length buf) ->
  rd32 buf (l_file_offset st) = Ret x -> x <> RECORDER_HEADER ->
  scan_step buf st = Ret (Next (set_offset (l_file_offset st + 1) st)).
Proof.
  intros H1 H2 H3. unfold scan_step. 
  destruct (N.ltb_spec (l_file_offset st) (N.of_nat (length buf))); [|lia]. cbn [negb].
  rewrite H2. cbn [bind]. destruct (N.eqb_spec x RECORDER_HEADER); [congruence|]. reflexivity.
Qed.

Lemma rd32_at pre a b c d post : 
  rd32 (pre ++ a :: b :: c :: d :: post) (N.of_nat (length pre)) = Ret (of_le [a;b;c;d]).
Proof.
  unfold rd32. change (a :: b :: c :: d :: post) with ([a;b;c;d] ++ post).
  rewrite slice_mid by reflexivity. reflexivity.
Qed.

Lemma run_S k buf st st' : scan_step buf st = Ret (Next st') -> run (S k) buf st = run k buf st'.
Proof. intro H. cbn [run]. now rewrite H. Qed.

Lemma le32_endmark : le32 RECORDER_HEADER_END_MARK = [0x88; 0xBB; 0x77; 0xBB].
Proof. reflexivity. Qed.
Lemma le32_header : le32 RECORDER_HEADER = [0x55; 0xAA; 0x55; 0xAA].
Proof. reflexivity. Qed.

Lemma resync pre post k st : l_file_offset st = N.of_nat (length pre) ->
  run (4 + k) (pre ++ le32 RECORDER_HEADER_END_MARK ++ le32 RECORDER_HEADER ++ post) st
  = run k (pre ++ le32 RECORDER_HEADER_END_MARK ++ le32 RECORDER_HEADER ++ post)
        (set_offset (N.of_nat (length pre + 4)) st).
Proof.
  intro Hoff. rewrite le32_endmark, le32_header. cbn [app].
  set (buf := pre ++ _). 
  assert (L : (length pre + 8 <= length buf)%nat) by (unfold buf; rewrite app_length; cbn; lia).
  cbn [Nat.add].
  assert (B1 : buf = (pre ++ [0x88]) ++ 0xBB :: 0x77 :: 0xBB :: 0x55 :: 0xAA :: 0x55 :: 0xAA :: post)
    by (unfold buf; now rewrite <- app_assoc).
  assert (B2 : buf = (pre ++ [0x88; 0xBB]) ++ 0x77 :: 0xBB :: 0x55 :: 0xAA :: 0x55 :: 0xAA :: post)
    by (unfold buf; now rewrite <- app_assoc).
  assert (B3 : buf = (pre ++ [0x88; 0xBB; 0x77]) ++ 0xBB :: 0x55 :: 0xAA :: 0x55 :: 0xAA :: post)
    by (unfold buf; now rewrite <- app_assoc).
  erewrite run_S.
  2:{ eapply scan_skip; [rewrite Hoff; lia| |].
      - rewrite Hoff. unfold buf. apply rd32_at.
      - vm_compute. discriminate. }
  erewrite run_S.
  2:{ eapply scan_skip; [cbn [set_offset l_file_offset]; rewrite Hoff; lia| |].
      - cbn [set_offset l_file_offset]. rewrite Hoff, B1.
        replace (N.of_nat (length pre) + 1) with (N.of_nat (length (pre ++ [0x88]))) by (rewrite app_length; cbn; lia).
        apply rd32_at.
      - vm_compute. discriminate. }
  erewrite run_S.
  2:{ eapply scan_skip; [cbn [set_offset l_file_offset]; rewrite Hoff; lia| |].
      - cbn [set_offset l_file_offset]. rewrite Hoff, B2.
        replace (N.of_nat (length pre) + 1 + 1) with (N.of_nat (length (pre ++ [0x88; 0xBB]))) by (rewrite app_length; cbn; lia).
        apply rd32_at.
      - vm_compute. discriminate. }
  erewrite run_S.
  2:{ eapply scan_skip; [cbn [set_offset l_file_offset]; rewrite Hoff; lia| |].
      - cbn [set_offset l_file_offset]. rewrite Hoff, B3.
        replace (N.of_nat (length pre) + 1 + 1 + 1) with (N.of_nat (length (pre ++ [0x88; 0xBB; 0x77]))) by (rewrite app_length; cbn; lia).
        apply rd32_at.
      - vm_compute. discriminate. }
  unfold set_offset. cbn. f_equal. f_equal. lia.
Qed.
