From Coq Require Import NArith ZArith List Lia Bool Sorted.
From Verif Require Import CrcModel CrcSpec CrcProofs RecorderModel LoaderModel LoaderSpec LoaderProofs LoaderProofs2 LoaderProofs3.
Import ListNotations.
Open Scope N_scope.

Local Opaque crc32_table le32 N.pow.
Arguments N.pow : simpl never.

Lemma slice_ok buf off n l : slice buf off n = Ret l ->
  (N.to_nat off + N.to_nat n <= length buf)%nat /\ l = sub buf (N.to_nat off) (N.to_nat n).
Proof.
  unfold slice. destruct (N.leb_spec (off + n) (N.of_nat (length buf))); [|discriminate].
  intro H1. injection H1 as <-. split; [lia|reflexivity].
Qed.

Lemma rd32_ok buf off x : rd32 buf off = Ret x ->
  (N.to_nat off + 4 <= length buf)%nat /\ x = of_le (sub buf (N.to_nat off) 4).
Proof.
  unfold rd32. destruct (slice buf off 4) as [l|] eqn:E; [|discriminate].
  cbn [bind]. intro H. injection H as <-. apply slice_ok in E. destruct E as [E ->]. 
  change (N.to_nat 4) with 4%nat in *. auto.
Qed.

Lemma crc_range_ok buf off n c : crc_range buf off n = Ret c ->
  (N.to_nat off + N.to_nat n <= length buf)%nat /\ crc32_table (sub buf (N.to_nat off) (N.to_nat n)) = Some c.
Proof.
  unfold crc_range. destruct (slice buf off n) as [l|] eqn:E; [|discriminate].
  cbn [bind]. destruct (crc32_table l) eqn:Ec; [|discriminate]. intro H. injection H as <-.
  apply slice_ok in E. destruct E as [E ->]. auto.
Qed.

(** ** termination *)
Definition checks (buf : list N) : Prop := forall off, ~ bad_frame buf off.

Lemma crc_nonempty buf off ml : crc_range buf off (u32 (ml + 2^32 - 4)) = Ret 0 -> ml < 2^32 ->
  ml <> 4 .
Proof.
  intros H Hm ->. apply crc_range_ok in H. destruct H as [_ H].
  rewrite u32_sub in H by (try reflexivity; lia).
  replace (N.to_nat (4 - 4)) with 0%nat in H by reflexivity. unfold sub in H. cbn [firstn] in H.
  Local Transparent crc32_table. vm_compute in H. Local Opaque crc32_table. discriminate.
Qed.

Lemma of_le_lt l : bytes l -> of_le l < 2^(8 * N.of_nat (length l)).
Proof.
  induction 1 as [|b r Hb Hr IH]; [reflexivity|].
  cbn [of_le length]. replace (8 * N.of_nat (S (length r))) with (8 * N.of_nat (length r) + 8) by lia.
  rewrite N.pow_add_r. change (2^8) with 256. lia.
Qed.

Lemma sub_bytes buf i n : bytes buf -> bytes (sub buf i n).
Proof.
  intro H. unfold sub. apply Forall_forall. intros x Hx. unfold bytes in H. rewrite Forall_forall in H.
  apply H. rewrite <- (firstn_skipn i buf). apply in_or_app. right.
  rewrite <- (firstn_skipn n (skipn i buf)). apply in_or_app. now left.
Qed.

Lemma sub_length buf i n : (i + n <= length buf)%nat -> length (sub buf i n) = n.
Proof. intro H. unfold sub. rewrite firstn_length, skipn_length. lia. Qed.

Lemma rd32_lt buf off x : bytes buf -> rd32 buf off = Ret x -> x < 2^32.
Proof.
  intros Hb H. apply rd32_ok in H. destruct H as [Hl ->].
  pose proof (of_le_lt _ (sub_bytes buf (N.to_nat off) 4 Hb)) as L. rewrite sub_length in L by auto. exact L.
Qed.

(** facts about one accepted frame *)
Lemma accept_facts buf off ml : bytes buf -> rd32 buf off = Ret RECORDER_HEADER ->
  rd32 buf (off + 16) = Ret ml -> crc_range buf off (u32 (ml + 2^32 - 4)) = Ret 0 ->
  ml = 0 \/ ml = 1 \/ ml = 2 \/ ml = 3 \/ 4 < ml < 2^32.
Proof.
  intros Hb H1 H2 H3. pose proof (rd32_lt _ _ _ Hb H2) as Hm.
  pose proof (crc_nonempty _ _ _ H3 Hm). lia.
Qed.

Lemma add_data_offset buf pd id st st' : add_data buf pd id st = Ret st' ->
  l_file_offset st' = l_file_offset st /\ l_cfgs st' = l_cfgs st.
Proof.
  unfold add_data. intro H. destruct (find id (l_cfgs st)) as [c|].
  - destruct (match find id (l_data st) with Some d => Ret d | None => new_dataset id c end); [|discriminate].
    cbn [bind] in H. destruct (slice buf (pd + 8) 8); [|discriminate]. cbn [bind] in H.
    destruct (structMember2Float buf (pd + 20) (lc_items c) (VF32 0) 0) as [ro|]; [|discriminate]. cbn [bind] in H.
    destruct (rd32 buf (pd + 16)); [|discriminate]. cbn [bind] in H.
    destruct (push_cols (d_cols a) (fst ro)); [|discriminate]. cbn [bind] in H.
    injection H as <-. auto.
  - injection H as <-. auto.
Qed.

(** a turn that is not stuck makes progress; lengths 0..3 wrap around and would need
    a file of 4 GiB: excluded by [length buf < 2^32 - 4]. *)
Lemma step_progress buf st st' : bytes buf -> N.of_nat (length buf) < 2^32 - 4 ->
  checks buf -> scan_step buf st = Ret (Next st') ->
  l_file_offset st < l_file_offset st'.
Proof.
  intros Hb Hlen Hc H. unfold scan_step in H.
  destruct (N.ltb_spec (l_file_offset st) (N.of_nat (length buf))) as [Ho|]; [|discriminate].
  cbn [negb] in H. destruct (rd32 buf (l_file_offset st)) as [mk|] eqn:E1; [|discriminate]. cbn [bind] in H.
  destruct (N.eqb_spec mk RECORDER_HEADER) as [->|]; cbn [negb] in H.
  2:{ injection H as <-. cbn. lia. }
  destruct (rd32 buf (l_file_offset st + 16)) as [ml|] eqn:E2; [|discriminate]. cbn [bind] in H.
  destruct (crc_range buf (l_file_offset st) (u32 (ml + 2^32 - 4))) as [crc|] eqn:E3; [|discriminate]. cbn [bind] in H.
  destruct (N.eqb_spec crc 0) as [->|Hne]; cbn [negb] in H.
  2:{ exfalso. apply (Hc (l_file_offset st)). repeat split; auto. exists ml, crc. auto. }
  destruct (rd32 buf (l_file_offset st + 4)) as [id|] eqn:E4; [|discriminate]. cbn [bind] in H.
  destruct (add_data buf (l_file_offset st) id _) as [st1|] eqn:E5; [|discriminate]. cbn [bind] in H.
  injection H as <-. apply add_data_offset in E5. destruct E5 as [-> _]. cbn [set_offset l_file_offset].
  destruct (accept_facts _ _ _ Hb E1 E2 E3) as [M|[M|[M|[M|M]]]]; try lia;
  subst ml; apply crc_range_ok in E3; destruct E3 as [E3 _]; exfalso; revert E3 Hlen;
  change (2^32) with 4294967296; unfold u32;
  match goal with |- context [N.land ?a ?b] => let v := eval vm_compute in (N.land a b) in
    change (N.land a b) with v end; lia.
Qed.

Lemma run_terminates buf st : bytes buf -> N.of_nat (length buf) < 2^32 - 4 -> checks buf ->
  exists fuel r, run fuel buf st = Some r.
Proof.
  intros Hb Hlen Hc.
  remember (N.to_nat (N.of_nat (length buf) - l_file_offset st)) as n.
  assert (Hn : (N.to_nat (N.of_nat (length buf) - l_file_offset st) <= n)%nat) by lia. clear Heqn.
  revert st Hn. induction n; intros st Hn.
  - exists 1%nat. cbn [run]. unfold scan_step.
    destruct (N.ltb_spec (l_file_offset st) (N.of_nat (length buf))); [lia|]. cbn [negb]. eauto.
  - destruct (scan_step buf st) as [[|st']|] eqn:E.
    + exists 1%nat. cbn [run]. rewrite E. eauto.
    + pose proof (step_progress _ _ _ Hb Hlen Hc E).
      destruct (N.ltb_spec (l_file_offset st) (N.of_nat (length buf))) as [Hlt|Hge].
      * destruct (IHn st') as [fuel [r Hr]]; [lia|]. exists (S fuel), r. cbn [run]. now rewrite E.
      * exfalso. unfold scan_step in E.
        destruct (N.ltb_spec (l_file_offset st) (N.of_nat (length buf))); [lia|]. discriminate.
    + exists 1%nat. cbn [run]. rewrite E. eauto.
Qed.

Lemma bad_failing buf off : bytes buf -> N.of_nat (length buf) < 2^32 - 4 ->
  bad_frame buf off -> failing_frame buf (N.to_nat off).
Proof.
  intros Hb Hl [H1 [H2 [ml [crc [H3 [H4 H5]]]]]].
  pose proof (rd32_lt _ _ _ Hb H3) as Hm.
  apply rd32_ok in H2. destruct H2 as [H2 H2'].
  apply rd32_ok in H3. destruct H3 as [H3 H3']. replace (N.to_nat (off + 16)) with (N.to_nat off + 16)%nat in * by lia.
  apply crc_range_ok in H4. destruct H4 as [H4 H4'].
  unfold failing_frame. rewrite <- H3'. cbn zeta.
  destruct (N.ltb_spec ml 4) as [Hs|Hs].
  - exfalso. assert (M : ml = 0 \/ ml = 1 \/ ml = 2 \/ ml = 3) by lia.
    revert H4 Hl. clear -M. change (2^32) with 4294967296. unfold u32.
    destruct M as [M|[M|[M|M]]]; subst ml;
    match goal with |- context [N.land ?a ?b] => let v := eval vm_compute in (N.land a b) in
    change (N.land a b) with v end; lia.
  - rewrite u32_sub in H4, H4' by auto.
    replace (N.to_nat (ml - 4)) with (N.to_nat ml - 4)%nat in * by lia.
    repeat split; try lia; auto. rewrite H4'. congruence.
Qed.

Lemma load_terminates buf st0 : bytes buf -> N.of_nat (length buf) < 2^32 - 4 ->
  (forall off, ~ failing_frame buf off) -> exists fuel r, load_file fuel (Some buf) st0 = Some r.
Proof.
  intros Hb Hl Hf. unfold load_file.
  destruct (load_header buf (set_err E_OK (clear_strs st0))) as [[st1 off]|] eqn:E.
  - destruct (off =? 0); [exists 0%nat; eauto|]. apply run_terminates; auto.
    intros o Ho. apply (Hf (N.to_nat o)). now apply bad_failing.
  - exists 0%nat. eauto.
Qed.

(** ** error codes *)
Lemma add_data_err buf pd id st st' : add_data buf pd id st = Ret st' ->
  l_err st' = l_err st \/ l_err st' = E_NOT_MATCH.
Proof.
  unfold add_data. intro H. destruct (find id (l_cfgs st)) as [c|].
  - destruct (match find id (l_data st) with Some d => Ret d | None => new_dataset id c end); [|discriminate].
    cbn [bind] in H. destruct (slice buf (pd + 8) 8); [|discriminate]. cbn [bind] in H.
    destruct (structMember2Float buf (pd + 20) (lc_items c) (VF32 0) 0) as [ro|]; [|discriminate]. cbn [bind] in H.
    destruct (rd32 buf (pd + 16)); [|discriminate]. cbn [bind] in H.
    destruct (push_cols (d_cols a) (fst ro)); [|discriminate]. cbn [bind] in H.
    injection H as <-. cbn [l_err]. destruct (negb _); auto.
  - injection H as <-. auto.
Qed.

Lemma run_err buf : forall fuel st st', run fuel buf st = Some (Ret st') ->
  l_err st = E_OK \/ l_err st = E_NOT_MATCH -> l_err st' = E_OK \/ l_err st' = E_NOT_MATCH.
Proof.
  induction fuel; intros st st' H Hs; [discriminate|].
  cbn [run] in H. destruct (scan_step buf st) as [[|st1]|] eqn:E; [|eapply IHfuel; [apply H|]|discriminate].
  - injection H as <-. auto.
  - unfold scan_step in E. destruct (negb (l_file_offset st <? N.of_nat (length buf))); [discriminate|].
    destruct (rd32 buf (l_file_offset st)) as [mk|]; [|discriminate]. cbn [bind] in E.
    destruct (negb (mk =? RECORDER_HEADER)); [injection E as <-; auto|].
    destruct (rd32 buf (l_file_offset st + 16)) as [ml|]; [|discriminate]. cbn [bind] in E.
    destruct (crc_range _ _ _) as [crc|]; [|discriminate]. cbn [bind] in E.
    destruct (negb (crc =? 0)); [injection E as <-; auto|].
    destruct (rd32 buf (l_file_offset st + 4)) as [id|]; [|discriminate]. cbn [bind] in E.
    destruct (add_data _ _ _ _) as [st2|] eqn:E5; [|discriminate]. cbn [bind] in E. injection E as <-.
    apply add_data_err in E5. cbn [set_offset l_err] in E5. destruct E5 as [-> | ->]; auto.
Qed.

Lemma load_header_err buf st st1 off : load_header buf st = Ret (st1, off) -> off <> 0 -> l_err st1 = l_err st.
Proof.
  unfold load_header. intros H Hne.
  destruct (rd32 buf 0) as [mk|]; [|discriminate]. cbn [bind] in H.
  destruct (negb (mk =? RECORDER_HEADER_START_MARK)); [injection H as <- <-; congruence|].
  destruct (rd32 buf 4) as [hl|]; [|discriminate]. cbn [bind] in H.
  destruct (crc_range _ _ _) as [crc|]; [|discriminate]. cbn [bind] in H.
  destruct (negb (crc =? 0)); [injection H as <- <-; congruence|].
  destruct (rd32 buf 8) as [ver|]; [|discriminate]. cbn [bind] in H.
  destruct (rd32 buf 12) as [cnt|]; [|discriminate]. cbn [bind] in H.
  destruct (load_sets _ _ _ _ _) as [r|]; [|discriminate]. cbn [bind] in H.
  destruct (rd32 buf (snd r + 4)) as [em|]; [|discriminate]. cbn [bind] in H.
  destruct (negb (em =? RECORDER_HEADER_END_MARK)); injection H as <- <-; [congruence|reflexivity].
Qed.

Lemma load_err_codes file st0 st : returns file st0 st ->
  l_err st = E_OK \/ l_err st = E_NO_HEADER \/ l_err st = E_NOT_MATCH.
Proof.
  intros [fuel H]. unfold load_file in H. destruct file as [buf|].
  - destruct (load_header buf (set_err E_OK (clear_strs st0))) as [[st1 off]|] eqn:E; [|discriminate].
    destruct (N.eqb_spec off 0); [injection H as <-; auto|].
    apply run_err in H; [destruct H; auto|].
    cbn [set_header_size set_offset l_err]. rewrite (load_header_err _ _ _ _ E) by auto. auto.
  - injection H as <-. auto.
Qed.

(** ** provenance of delivered samples *)
Lemma struct_row buf ts : forall items addr rv o vs n,
  map (fun it => type_of_code (li_type it)) items = map Some ts ->
  structMember2Float buf addr items rv o = Ret (vs, n) -> vs = row buf (N.to_nat addr) ts.
Proof.
  induction ts as [|t ts IH]; intros [|it items] addr rv o vs n Ht H; try discriminate Ht.
  - cbn in H. injection H as <- <-. reflexivity.
  - cbn [map] in Ht. injection Ht as Ht1 Ht2. cbn [structMember2Float] in H. rewrite Ht1 in H.
    destruct (slice buf addr (N.of_nat (type_size t))) as [l|] eqn:E; [|discriminate]. cbn [bind fst snd] in H.
    destruct (structMember2Float buf (addr + N.of_nat (type_size t)) items (cast_float t (of_le l)) (N.of_nat (type_size t))) as [[vs' n']|] eqn:E'; [|discriminate].
    cbn [bind fst snd] in H. injection H as <- <-.
    apply slice_ok in E. destruct E as [_ ->]. rewrite Nat2N.id.
    cbn [row]. unfold shown at 1. cbn [fst snd]. f_equal.
    apply IH in E'; auto. rewrite E'. f_equal. lia.
Qed.

Lemma struct_length buf : forall items addr rv o vs n,
  structMember2Float buf addr items rv o = Ret (vs, n) -> length vs = length items.
Proof.
  induction items as [|it items IH]; intros addr rv o vs n H.
  - cbn in H. injection H as <- <-. reflexivity.
  - cbn [structMember2Float] in H.
    destruct (match type_of_code (li_type it) with Some t => _ | None => _ end) as [[v o']|]; [|discriminate].
    cbn [bind fst snd] in H.
    destruct (structMember2Float buf (addr + o') items v o') as [[vs' n']|] eqn:E; [|discriminate].
    cbn [bind fst snd] in H. injection H as <- <-. cbn [length]. f_equal. eapply IH. apply E.
Qed.

Lemma push_cols_spec : forall vals cols cols', push_cols cols vals = Ret cols' ->
  length vals = length cols ->
  length cols' = length cols /\
  forall j, (j < length cols)%nat -> nth j cols' [] = nth j cols [] ++ [nth j vals (VF32 0)].
Proof.
  induction vals as [|v vs IH]; intros [|c cs] cols' H L; try discriminate L.
  - cbn in H. injection H as <-. split; [reflexivity|]. cbn. intros; lia.
  - cbn [push_cols] in H. destruct (push_cols cs vs) as [r|] eqn:E; [|discriminate].
    cbn [bind] in H. injection H as <-. injection L as L. destruct (IH _ _ E L) as [I1 I2].
    cbn [length]. split; [lia|]. intros [|j] Hj; [reflexivity|]. cbn [nth]. apply I2. lia.
Qed.

Definition provenance (buf : list N) (l : list (nat * nat)) (st : loader) : Prop :=
  disjoint_sorted l (N.to_nat (l_file_offset st)) /\
  Forall (fun p => intact_frame buf (fst p) (snd p)) l /\
  forall id, match find id (l_data st) with
             | None => find id (l_cfgs st) <> None -> of_frame_id buf id l = []
             | Some d => exists c, find id (l_cfgs st) = Some c /\ shows buf c (of_frame_id buf id l) d
             end.

Lemma ss_app_last (l : list (nat * nat)) p lim :
  disjoint_sorted l lim -> (lim <= fst p)%nat -> forall lim', (fst p + snd p <= lim')%nat ->
  disjoint_sorted (l ++ [p]) lim'.
Proof.
  intros [H1 H2] Hp lim' Hl. split.
  - induction l as [|q l IH].
    + constructor; constructor.
    + cbn [app]. inversion H1; subst. inversion H2; subst. constructor.
      * apply IH; auto.
      * apply Forall_app. split; auto. constructor; auto. lia.
  - apply Forall_app. split; [|constructor; auto].
    eapply Forall_impl; [|apply H2]. cbn. intros. lia.
Qed.

Lemma skipn_skipn' {A} (l : list A) y : forall x, skipn x (skipn y l) = skipn (y + x) l.
Proof.
  revert l. induction y; intros l x; [reflexivity|].
  destruct l as [|a l]; [now rewrite !skipn_nil|]. cbn [Nat.add skipn]. apply IHy.
Qed.

Lemma sub_split buf off n k : (k <= n)%nat -> sub buf off n = sub buf off k ++ sub buf (off + k) (n - k).
Proof.
  intro H. unfold sub. rewrite <- (firstn_skipn k (firstn n (skipn off buf))). f_equal.
  - rewrite firstn_firstn. f_equal. lia.
  - rewrite skipn_firstn_comm. f_equal. apply skipn_skipn'.
Qed.

Lemma be32_of_bytes a b c d : bytes [a;b;c;d] -> exists w, w < 2^32 /\ [a;b;c;d] = be32 w.
Proof.
  intro H. inversion H as [|? ? Ha H1]; subst. inversion H1 as [|? ? Hb H2]; subst.
  inversion H2 as [|? ? Hc H3]; subst. inversion H3 as [|? ? Hd _]; subst.
  exists (a * 2^24 + b * 2^16 + c * 2^8 + d).
  change (2^32) with 4294967296. unfold be32.
  change (2^24) with 16777216. change (2^16) with 65536. change (2^8) with 256.
  split; [lia|].
  assert (E1 : (a * 16777216 + b * 65536 + c * 256 + d) / 16777216 = a).
  { symmetry. apply (N.div_unique _ _ _ (b * 65536 + c * 256 + d)); lia. }
  assert (E2 : (a * 16777216 + b * 65536 + c * 256 + d) / 65536 = a * 256 + b).
  { symmetry. apply (N.div_unique _ _ _ (c * 256 + d)); lia. }
  assert (E3 : (a * 16777216 + b * 65536 + c * 256 + d) / 256 = (a * 256 + b) * 256 + c).
  { symmetry. apply (N.div_unique _ _ _ d); lia. }
  rewrite E1, E2, E3. f_equal. f_equal; [|f_equal; [|f_equal]].
  - apply (N.mod_unique _ _ a); lia.
  - apply (N.mod_unique _ _ (a * 256 + b)); lia.
  - apply (N.mod_unique _ _ ((a * 256 + b) * 256 + c)); lia.
Qed.

Lemma crc_short_nonzero l : bytes l -> (length l < 4)%nat -> crc32_table l <> Some 0.
Proof.
  (* fewer than four bytes: the register is a non-zero linear image of (0xFFFFFFFF xor data) *)
  intros Hb Hl H. rewrite crc32_table_soft in H by auto. apply some_inj in H.
  unfold crc32_soft in H. rewrite fold_soft_bits in H by auto.
  assert (Lb : (length (bits l) <= 24)%nat).
  { unfold bits. clear -Hl. destruct l as [|a [|b [|c [|d l]]]]; cbn in *; lia. }
  rewrite feeds_word in H by lia.
  apply iter_eq0 in H.
  - apply lxor_eq0 in H.
    pose proof (f_equal (fun x => N.testbit x 0) H) as T. cbv beta in T.
    replace (N.testbit CRC32_START 0) with true in T by reflexivity.
    (* word_at has zero bit 0 *)
    assert (Z : forall bs k, N.of_nat (length bs) <= k -> N.testbit (word_at bs k) 0 = false).
    { induction bs as [|b r IH]; intros k Hk; [apply N.bits_0|].
      cbn [length] in Hk. cbn [word_at]. rewrite N.lxor_spec.
      rewrite (IH (k - 1)) by lia. destruct b; [rewrite N.pow2_bits_false by lia|rewrite N.bits_0]; reflexivity. }
    rewrite Z in T by lia. discriminate.
  - apply lxor_lt; [reflexivity|]. change (2^32) with (2^(31 + 1)). apply word_at_lt. lia.
Qed.

Lemma crc_zero_intact buf off ml : bytes buf ->
  rd32 buf off = Ret RECORDER_HEADER -> rd32 buf (off + 16) = Ret ml ->
  4 <= ml -> crc_range buf off (u32 (ml + 2^32 - 4)) = Ret 0 ->
  intact_frame buf (N.to_nat off) (N.to_nat ml).
Proof.
  intros Hb H1 H2 H4 H3. pose proof (rd32_lt _ _ _ Hb H2) as Hm.
  rewrite u32_sub in H3 by auto.
  apply rd32_ok in H1. destruct H1 as [H1 H1'].
  apply rd32_ok in H2. destruct H2 as [H2 H2']. replace (N.to_nat (off + 16)) with (N.to_nat off + 16)%nat in * by lia.
  apply crc_range_ok in H3. destruct H3 as [H3 H3'].
  replace (N.to_nat (ml - 4)) with (N.to_nat ml - 4)%nat in * by lia.
  assert (L8 : (8 <= N.to_nat ml)%nat).
  { destruct (Nat.le_gt_cases 8 (N.to_nat ml)); auto. exfalso.
    eapply crc_short_nonzero; [|shelve|apply H3'].
    apply sub_bytes; auto. Unshelve. rewrite sub_length; lia. }
  unfold intact_frame. rewrite <- H1', <- H2', N2Nat.id.
  repeat split; auto; try lia.
  rewrite (sub_split buf (N.to_nat off) (N.to_nat ml - 4) (N.to_nat ml - 8)) in H3' by lia.
  replace (N.to_nat ml - 4 - (N.to_nat ml - 8))%nat with 4%nat in H3' by lia.
  set (t := sub buf (N.to_nat off + (N.to_nat ml - 8)) 4) in *.
  assert (Bt : bytes t) by (apply sub_bytes; auto).
  assert (Lt : length t = 4%nat) by (apply sub_length; lia).
  destruct t as [|a [|b [|c [|d [|? ?]]]]]; try discriminate Lt.
  destruct (be32_of_bytes a b c d Bt) as [w [Hw E]]. rewrite E in *.
  apply (proj1 (residue_iff _ w (sub_bytes _ _ _ Hb) Hw)) in H3'.
  exists w. auto.
Qed.

Lemma map_nil_length {A B} (l : list A) : length (map (fun _ => @nil B) l) = length l.
Proof. apply map_length. Qed.

Lemma add_data_prov buf off ml id st st' l : bytes buf ->
  rd32 buf off = Ret RECORDER_HEADER -> rd32 buf (off + 16) = Ret ml -> 4 <= ml ->
  crc_range buf off (u32 (ml + 2^32 - 4)) = Ret 0 -> rd32 buf (off + 4) = Ret id ->
  l_file_offset st = off -> provenance buf l st ->
  add_data buf off id (set_offset (off + ml) st) = Ret st' ->
  provenance buf (l ++ [(N.to_nat off, N.to_nat ml)]) st'.
Proof.
  intros Hb H1 H2 H4 H3 Hid Hoff [P1 [P2 P3]] Ha.
  pose proof (crc_zero_intact _ _ _ Hb H1 H2 H4 H3) as Hint.
  pose proof (add_data_offset _ _ _ _ _ Ha) as [Ho Hc]. cbn [set_offset l_file_offset l_cfgs] in Ho, Hc.
  assert (Fid : frame_id buf (N.to_nat off, N.to_nat ml) = id).
  { unfold frame_id. cbn [fst]. apply rd32_ok in Hid. destruct Hid as [_ ->]. do 2 f_equal. lia. }
  split; [|split].
  - rewrite Hoff in P1. rewrite Ho. eapply ss_app_last; eauto; cbn [fst snd]; lia.
  - apply Forall_app. split; auto.
  - intro id'. unfold of_frame_id. rewrite filter_app. cbn [filter]. rewrite Fid.
    unfold add_data in Ha. cbn [set_offset l_cfgs l_data] in Ha.
    destruct (find id (l_cfgs st)) as [c|] eqn:Ec.
    + destruct (match find id (l_data st) with Some d => Ret d | None => new_dataset id c end) as [ds|] eqn:Ed; [|discriminate].
      cbn [bind] in Ha. destruct (slice buf (off + 8) 8) as [tsb|] eqn:Et; [|discriminate]. cbn [bind] in Ha.
      destruct (structMember2Float buf (off + 20) (lc_items c) (VF32 0) 0) as [[vs n]|] eqn:Es; [|discriminate]. cbn [bind fst snd] in Ha.
      rewrite H2 in Ha. cbn [bind] in Ha.
      destruct (push_cols (d_cols ds) vs) as [cols|] eqn:Ep; [|discriminate]. cbn [bind] in Ha.
      injection Ha as <-. cbn [l_data l_cfgs]. rewrite find_assign.
      destruct (N.eqb_spec id id') as [<-|Hne].
      * exists c. split; [auto|].
        fold (of_frame_id buf id l). set (ol := of_frame_id buf id l) in *.
        assert (Sds : shows buf c ol ds).
        { specialize (P3 id). destruct (find id (l_data st)) as [d|].
          - injection Ed as <-. destruct P3 as [c' [Ec' S]]. rewrite Ec in Ec'. injection Ec' as <-. exact S.
          - assert (Z : of_frame_id buf id l = []) by (apply P3; congruence). fold ol in Z.
            unfold new_dataset in Ed. destruct (c_str (lc_name c)); [|discriminate]. cbn [bind] in Ed.
            destruct (c_strs (map li_name (lc_items c))); [|discriminate]. cbn [bind] in Ed.
            injection Ed as <-. rewrite Z. unfold shows. cbn [d_time d_cols map].
            rewrite map_nil_length. split; [reflexivity|]. split; [reflexivity|]. split.
            + apply Forall_forall. intros x Hx. apply in_map_iff in Hx. destruct Hx as [? [<- _]]. reflexivity.
            + intros ts _ j Hj. clear. revert j. induction (lc_items c); intros [|j]; cbn; auto. }
        destruct Sds as [S1 [S2 [S3 S4]]].
        pose proof (struct_length _ _ _ _ _ _ _ Es) as Lv.
        destruct (push_cols_spec _ _ _ Ep) as [L' N']; [congruence|].
        unfold shows. cbn [d_time d_cols].
        assert (Nth : forall x j, (j < length (d_cols ds))%nat -> In x [nth j (d_cols ds) []] -> length x = length (d_time ds)).
        { intros x j Hj [<-|[]]. rewrite Forall_forall in S3. apply S3. now apply nth_In. }
        split; [|split; [|split]].
        -- rewrite map_app, S1. cbn [map]. f_equal. f_equal. unfold frame_time. cbn [fst].
           apply slice_ok in Et. destruct Et as [_ ->]. do 2 f_equal. lia.
        -- congruence.
        -- apply Forall_forall. intros x Hx. apply (In_nth _ _ []) in Hx. destruct Hx as [j [Hj <-]].
           rewrite L' in Hj. rewrite N' by auto. rewrite !app_length. cbn [length].
           f_equal. eapply Nth; [apply Hj|]. now left.
        -- intros ts Hts j Hj. rewrite L' in Hj. rewrite N' by auto. rewrite (S4 ts Hts j Hj).
           rewrite map_app. cbn [map fst]. f_equal. f_equal.
           pose proof (struct_row _ _ _ _ _ _ _ _ Hts Es) as ->. do 2 f_equal. lia.
      * rewrite app_nil_r. apply P3.
    + injection Ha as <-. cbn [l_data l_cfgs]. specialize (P3 id').
      destruct (N.eqb_spec id id') as [<-|Hne].
      * destruct (find id (l_data st)) as [d|].
        -- destruct P3 as [c [Ec' _]]. congruence.
        -- intro X. congruence.
      * rewrite app_nil_r. exact P3.
Qed.

Lemma step_prov buf st st' l : bytes buf -> N.of_nat (length buf) < 2^32 - 4 ->
  provenance buf l st -> scan_step buf st = Ret (Next st') ->
  exists l', provenance buf l' st' /\ l_cfgs st' = l_cfgs st.
Proof.
  intros Hb Hlen HP H. unfold scan_step in H.
  destruct (N.ltb_spec (l_file_offset st) (N.of_nat (length buf))) as [Ho|]; [|discriminate].
  cbn [negb] in H. destruct (rd32 buf (l_file_offset st)) as [mk|] eqn:E1; [|discriminate]. cbn [bind] in H.
  destruct (N.eqb_spec mk RECORDER_HEADER) as [->|]; cbn [negb] in H.
  2:{ injection H as <-. exists l. destruct HP as [[P1 P1'] [P2 P3]]. split; [|reflexivity].
      split; [|split; auto]. split; auto. cbn [set_offset l_file_offset].
      eapply Forall_impl; [|apply P1']. cbn. intros. lia. }
  destruct (rd32 buf (l_file_offset st + 16)) as [ml|] eqn:E2; [|discriminate]. cbn [bind] in H.
  destruct (crc_range buf (l_file_offset st) (u32 (ml + 2^32 - 4))) as [crc|] eqn:E3; [|discriminate]. cbn [bind] in H.
  destruct (N.eqb_spec crc 0) as [->|Hne]; cbn [negb] in H.
  2:{ injection H as <-. exists l. split; [|reflexivity]. exact HP. }
  destruct (rd32 buf (l_file_offset st + 4)) as [id|] eqn:E4; [|discriminate]. cbn [bind] in H.
  destruct (add_data buf (l_file_offset st) id _) as [st1|] eqn:E5; [|discriminate]. cbn [bind] in H.
  injection H as <-. eexists. split.
  - eapply add_data_prov; eauto.
    destruct (accept_facts _ _ _ Hb E1 E2 E3) as [M|[M|[M|[M|M]]]]; try lia;
    subst ml; apply crc_range_ok in E3; destruct E3 as [E3 _]; exfalso; revert E3 Hlen;
    change (2^32) with 4294967296; unfold u32;
    match goal with |- context [N.land ?a ?b] => let v := eval vm_compute in (N.land a b) in
      change (N.land a b) with v end; lia.
  - apply add_data_offset in E5. destruct E5 as [_ ->]. reflexivity.
Qed.

Lemma run_prov buf : bytes buf -> N.of_nat (length buf) < 2^32 - 4 ->
  forall fuel st st' l, provenance buf l st -> run fuel buf st = Some (Ret st') ->
  exists l', provenance buf l' st'.
Proof.
  intros Hb Hlen. induction fuel; intros st st' l HP H; [discriminate|].
  cbn [run] in H. destruct (scan_step buf st) as [[|st1]|] eqn:E; [| |discriminate].
  - injection H as <-. eauto.
  - destruct (step_prov _ _ _ _ Hb Hlen HP E) as [l' [HP' _]]. eapply IHfuel; eauto.
Qed.

Lemma load_header_data buf st st1 off : load_header buf st = Ret (st1, off) -> l_data st1 = l_data st.
Proof.
  unfold load_header. intros H.
  destruct (rd32 buf 0) as [mk|]; [|discriminate]. cbn [bind] in H.
  destruct (negb (mk =? RECORDER_HEADER_START_MARK)); [injection H as <- <-; reflexivity|].
  destruct (rd32 buf 4) as [hl|]; [|discriminate]. cbn [bind] in H.
  destruct (crc_range _ _ _) as [crc|]; [|discriminate]. cbn [bind] in H.
  destruct (negb (crc =? 0)); [injection H as <- <-; reflexivity|].
  destruct (rd32 buf 8) as [ver|]; [|discriminate]. cbn [bind] in H.
  destruct (rd32 buf 12) as [cnt|]; [|discriminate]. cbn [bind] in H.
  destruct (load_sets _ _ _ _ _) as [r|]; [|discriminate]. cbn [bind] in H.
  destruct (rd32 buf (snd r + 4)) as [em|]; [|discriminate]. cbn [bind] in H.
  destruct (negb (em =? RECORDER_HEADER_END_MARK)); injection H as <- <-; reflexivity.
Qed.

Lemma load_provenance buf st : bytes buf -> N.of_nat (length buf) < 2^32 - 4 ->
  returns (Some buf) new_loader st -> exists l, provenance buf l st \/ l_data st = [].
Proof.
  intros Hb Hlen [fuel H]. unfold load_file in H.
  destruct (load_header buf (set_err E_OK (clear_strs new_loader))) as [[st1 off]|] eqn:E; [|discriminate].
  pose proof (load_header_data _ _ _ _ E) as Ed.
  destruct (off =? 0).
  - injection H as <-. exists []. right. exact Ed.
  - destruct (run_prov buf Hb Hlen fuel (set_header_size off (set_offset off st1)) st []) as [l' HP]; auto.
    + split; [|split]; [split; constructor|constructor|].
      intro id. cbn [set_header_size set_offset l_data]. rewrite Ed. intros _. reflexivity.
    + exists l'. now left.
Qed.

(** ** truncated recordings *)
Lemma truncated_oob cfg hdr ms olds fs dc m old f k :
  cfg <> [] -> Forall wf_config cfg -> NoDup (map dc_id cfg) -> write_header cfg = Some hdr ->
  Forall (fun m => exists dc, In dc cfg /\ record_of dc m) ms -> frames ms olds = Some fs ->
  ms <> [] ->
  In dc cfg -> record_of dc m -> record_bytes m old = Some f ->
  (0 < k < length f - 4)%nat ->
  reads_outside (Some (hdr ++ fs ++ firstn k f)) new_loader.
Proof.
  intros Hne Hwf Hnd Hw Hrec Hfr Hms Hdc Hm Hf Hk.
  pose proof (all_small cfg hdr ms Hne Hwf Hw Hrec) as Hsm.
  assert (Hs : small m).
  { pose proof (all_small cfg hdr [m] Hne Hwf Hw) as X.
    assert (Y : Forall small [m]) by (apply X; constructor; eauto). now inversion Y. }
  destruct (record_bytes_shape m old Hs) as [c [Hc [Ec Ef]]].
  rewrite Ef in Hf. apply some_inj in Hf.
  assert (Lf : length f = (28 + length (payload_bytes m))%nat) by (subst f; apply frame_length).
  assert (Hsz : u32 (msg_sizeof m) = N.of_nat (length f)).
  { unfold small in Hs. unfold msg_sizeof. rewrite u32_id by lia. lia. }
  assert (Hsz32 : N.of_nat (length f) < 2^32) by (unfold small in Hs; lia).
  destruct ms as [|m0 ms']; [congruence|].
  destruct (frames_start m0 ms' olds fs) as [tl Htl]; [now inversion Hsm|auto|].
  set (ms := m0 :: ms') in *.
  set (st1 := set_offset (N.of_nat (length hdr)) (started cfg hdr new_loader)).
  destruct (run_frames cfg Hwf Hnd ms olds [] fs hdr st1)
        as [st' [Hr [_ [_ [_ [_ [_ [_ [_ A8]]]]]]]]]; auto.
  { intros dc' Hin. unfold st1. cbn [set_offset started l_cfgs]. apply cfgs_found; auto. }
  { intros dc' Hin. reflexivity. }
  { intros id Hid. reflexivity. }
  exists (4 + (length ms + 1))%nat.
  assert (Efile : hdr ++ fs ++ firstn k f = hdr ++ le32 RECORDER_HEADER ++ (tl ++ firstn k f)).
  { rewrite Htl. rewrite <- !app_assoc. reflexivity. }
  rewrite Efile. rewrite (load_start cfg) by auto. rewrite <- Efile. fold st1. rewrite Hr.
  cbn [run]. set (pre := hdr ++ fs) in *. set (g := firstn k f).
  assert (Lg : length g = k) by (unfold g; rewrite firstn_length; lia).
  assert (Eb : hdr ++ fs ++ g = pre ++ g ++ []) by (unfold pre; now rewrite <- app_assoc, (app_nil_r g)).
  rewrite Eb. clear Eb.
  assert (Lb : length (pre ++ g ++ []) = (length pre + k)%nat) by (rewrite !app_length; cbn; lia).
  unfold scan_step. rewrite A8.
  destruct (N.ltb_spec (N.of_nat (length pre)) (N.of_nat (length (pre ++ g ++ [])))) as [_|B]; [|lia].
  cbn [negb].
  assert (Sf : forall i n, (i + n <= k)%nat -> slice (pre ++ g ++ []) (N.of_nat (length pre) + N.of_nat i) (N.of_nat n) = Ret (sub f i n)).
  { intros i n Hin. rewrite slice_sub by lia. f_equal. unfold sub, g.
    rewrite skipn_firstn_comm, firstn_firstn. f_equal. lia. }
  assert (So : forall i n, (k < i + n)%nat -> slice (pre ++ g ++ []) (N.of_nat (length pre) + N.of_nat i) (N.of_nat n) = OOB).
  { intros i n Hin. unfold slice. rewrite Lb.
    destruct (N.leb_spec (N.of_nat (length pre) + N.of_nat i + N.of_nat n) (N.of_nat (length pre + k))); [lia|reflexivity]. }
  unfold rd32 at 1. pose proof (Sf 0%nat 4%nat) as S0. pose proof (So 0%nat 4%nat) as O0.
  pose proof (Sf 16%nat 4%nat) as S16. pose proof (So 16%nat 4%nat) as O16.
  pose proof (So 0%nat (length f - 4)%nat) as Oc.
  change (N.of_nat 0) with 0 in *. rewrite N.add_0_r in *.
  change (N.of_nat 4) with 4 in *. change (N.of_nat 16) with 16 in *.
  destruct (Nat.le_gt_cases 4 k); [rewrite S0 by lia|rewrite O0 by lia; reflexivity].
  cbn [bind].
  assert (F04 : sub f 0 4 = le32 RECORDER_HEADER).
  { assert (E : slice ([] ++ f ++ []) 0 4 = Ret (le32 RECORDER_HEADER)).
    { rewrite app_nil_r. subst f. unfold msg_prefix. rewrite <- !app_assoc. 
      apply slice_mid; [reflexivity|now rewrite le32_length]. }
    pose proof (slice_sub [] f [] 0 4) as E'. cbn [length N.of_nat N.add Pos.of_succ_nat Pos.succ] in E'.
    rewrite E in E'. assert (X : Ret (le32 RECORDER_HEADER) = Ret (sub f 0 4)) by (apply E'; lia).
    now inversion X. }
  assert (F16 : sub f 16 4 = le32 (N.of_nat (length f))).
  { assert (E : slice ([] ++ f ++ []) 16 4 = Ret (le32 (N.of_nat (length f)))).
    { rewrite app_nil_r, <- Hsz. cbn [app]. subst f. unfold msg_prefix. rewrite <- !app_assoc.
      rewrite (app_assoc (le32 RECORDER_HEADER)), (app_assoc (le32 RECORDER_HEADER ++ _)).
      apply slice_mid; [|now rewrite le32_length].
      rewrite !app_length, !le32_length, le_bytes_length. reflexivity. }
    pose proof (slice_sub [] f [] 16 4) as E'. cbn [length N.of_nat N.add Pos.of_succ_nat Pos.succ] in E'.
    rewrite E in E'. assert (X : Ret (le32 (N.of_nat (length f))) = Ret (sub f 16 4)) by (apply E'; lia).
    now inversion X. }
  rewrite F04, of_le32 by reflexivity. rewrite N.eqb_refl. cbn [negb].
  unfold rd32 at 1. destruct (Nat.le_gt_cases 20 k); [rewrite S16 by lia|rewrite O16 by lia; reflexivity].
  cbn [bind]. rewrite F16, of_le32 by auto.
  unfold crc_range. rewrite u32_sub by lia.
  replace (N.of_nat (length f) - 4) with (N.of_nat (length f - 4)) by lia.
  rewrite Oc by lia. reflexivity.
Qed.

(** ** integers shown exactly *)
Lemma f32_exact z : (Z.abs z <= 2^24)%Z -> f32_of_int z = z.
Proof.
  intro H. unfold f32_of_int. destruct (Z.ltb_spec (Z.abs z) (2^24)); [reflexivity|].
  assert (E : Z.abs z = (2^24)%Z) by lia. rewrite E.
  change (Z.log2 (2^24)) with 24%Z. change (24 - 23)%Z with 1%Z.
  change (2^24 / 2^1)%Z with (2^23)%Z. change (2^24 mod 2^1)%Z with 0%Z. change (2^(1-1))%Z with 1%Z.
  change (0 <? 1)%Z with true. cbv iota. change (2^23 * 2^1)%Z with (2^24)%Z. rewrite <- E. lia.
Qed.
