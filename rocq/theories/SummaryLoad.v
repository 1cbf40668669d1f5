(** The summary and the progress of recordings that were loaded. *)
From Coq Require Import NArith ZArith QArith List Ascii String Sorted Permutation Lia Bool.
From Verif Require Import CrcModel CrcSpec CrcProofs RecorderModel LoaderModel LoaderSpec LoaderProofs LoaderProofs2 LoaderProofs3
  TextModel TextSpec TextProofs SummaryModel SummarySpec SummaryProofs.
Import ListNotations.
Open Scope N_scope.
Local Opaque crc32_table le32 N.pow.
Arguments N.pow : simpl never.

(** ** what one turn of the loop leaves alone *)
Lemma run_inv (I : loader -> Prop) buf : (forall st st', I st -> scan_step buf st = Ret (Next st') -> I st') ->
  forall fuel st st', I st -> run fuel buf st = Some (Ret st') -> I st'.
Proof.
  intros H. induction fuel as [|k IH]; intros st st' Hi; cbn [run]; [discriminate|].
  destruct (scan_step buf st) as [[|s]|] eqn:E; [intros X; injection X as <-; exact Hi| |discriminate].
  apply IH. exact (H _ _ Hi E).
Qed.
Lemma bind_ret {A B} (x : res A) (f : A -> res B) b : bind x f = Ret b -> exists a, x = Ret a /\ f a = Ret b.
Proof. destruct x; cbn; [eauto|discriminate]. Qed.
Ltac binds := repeat match goal with H : bind _ _ = Ret _ |- _ => apply bind_ret in H; destruct H as (? & ? & H) end.

Definition keys {A} (m : list (N * A)) := map fst m.
Lemma find_none_key {A} k (m : list (N * A)) : find k m = None -> ~ In k (keys m).
Proof.
  unfold find, keys. intros H I. apply in_map_iff in I. destruct I as ([k' v] & <- & I). cbn [fst] in *.
  destruct (List.find _ m) as [p|] eqn:E; [discriminate|]. apply (List.find_none _ _ E) in I. cbn in I. rewrite N.eqb_refl in I. discriminate.
Qed.
Lemma find_key {A} k (v : A) m : NoDup (keys m) -> In (k, v) m -> find k m = Some v.
Proof.
  unfold find, keys. induction m as [|[k' v'] m IH]; intros D I; [destruct I|]. cbn [List.find fst map] in *.
  destruct (N.eqb_spec k' k) as [->|n].
  - destruct I as [E|I]; [injection E as <-; reflexivity|]. exfalso. inversion D; subst. apply H1. apply in_map_iff. exists (k, v). split; [reflexivity|exact I].
  - destruct I as [E|I]; [injection E as <- _; congruence|]. apply IH; [inversion D; assumption|exact I].
Qed.
Lemma found_in {A} k (v : A) m : find k m = Some v -> In (k, v) m.
Proof.
  unfold find. destruct (List.find (fun p => fst p =? k) m) as [[k' v']|] eqn:E; [|discriminate]. intros H. injection H as <-.
  apply List.find_some in E. destruct E as [I X]. cbn [fst] in X. apply N.eqb_eq in X. subst k'. exact I.
Qed.
Lemma assign_keys {A} k (v : A) m : NoDup (keys m) -> NoDup (keys (assign k v m)).
Proof.
  intros D. unfold assign. destruct (find k m) eqn:E.
  - unfold keys. rewrite map_map. replace (map _ m) with (map fst m); [exact D|]. apply map_ext.
    intros [k' v']. cbn [fst]. destruct (N.eqb_spec k' k); cbn; congruence.
  - unfold keys. rewrite map_app. cbn [map fst]. apply (Permutation_NoDup (l := k :: map fst m)).
    + apply Permutation_cons_append. + constructor; [exact (find_none_key _ _ E)|exact D].
Qed.
Lemma add_keeps buf pd id st st' : add_data buf pd id st = Ret st' ->
  (NoDup (keys (l_data st)) -> NoDup (keys (l_data st'))) /\ l_header_size st' = l_header_size st /\ l_file_offset st' = l_file_offset st.
Proof.
  unfold add_data. destruct (find id (l_cfgs st)).
  - intros H. binds. injection H as <-. cbn [l_data l_header_size l_file_offset]. split; [apply assign_keys|auto].
  - intros H. injection H as <-. cbn. auto.
Qed.
Lemma step_cases buf st st' : scan_step buf st = Ret (Next st') ->
  l_file_offset st < N.of_nat (List.length buf) /\
  (st' = set_offset (l_file_offset st + 1) st \/ st' = add_str S_crc st \/
   exists ml id c, rd32 buf (l_file_offset st + 16) = Ret ml /\ crc_range buf (l_file_offset st) (u32 (ml + 2 ^ 32 - 4)) = Ret c /\
     add_data buf (l_file_offset st) id (set_offset (l_file_offset st + ml) st) = Ret st').
Proof.
  unfold scan_step. destruct (N.ltb_spec (l_file_offset st) (N.of_nat (List.length buf))) as [L|L]; cbn [negb]; [|discriminate].
  intros H. split; [exact L|]. apply bind_ret in H. destruct H as (mk & _ & H). destruct (mk =? RECORDER_HEADER); cbn [negb] in H.
  - apply bind_ret in H. destruct H as (ml & M & H). apply bind_ret in H. destruct H as (c & C & H).
    destruct (c =? 0); cbn [negb] in H; [|injection H as <-; auto].
    binds. injection H as <-. right. right. eauto 10.
  - injection H as <-. auto.
Qed.
Lemma step_keeps buf st st' : scan_step buf st = Ret (Next st') ->
  (NoDup (keys (l_data st)) -> NoDup (keys (l_data st'))) /\ l_header_size st' = l_header_size st.
Proof.
  intros H. destruct (step_cases _ _ _ H) as (_ & [->|[->|(ml & id & c & _ & _ & A)]]); [cbn; auto|cbn; auto|].
  apply add_keeps in A. cbn in A. tauto.
Qed.

(** ** where the loop stands *)
Lemma slice_bound buf off n l : slice buf off n = Ret l -> off + n <= N.of_nat (List.length buf).
Proof. unfold slice. destruct (N.leb_spec (off + n) (N.of_nat (List.length buf))); [auto|discriminate]. Qed.
Lemma crc_range_bound buf off n c : crc_range buf off n = Ret c -> off + n <= N.of_nat (List.length buf).
Proof. unfold crc_range. intros H. apply bind_ret in H. destruct H as (l & H & _). exact (slice_bound _ _ _ _ H). Qed.
Lemma of_le_lt l : bytes l -> of_le l < 256 ^ N.of_nat (List.length l).
Proof.
  induction 1 as [|b l Hb F IH]; cbn [of_le List.length]; [reflexivity|].
  rewrite Nat2N.inj_succ, N.pow_succ_r'. lia.
Qed.
Lemma bytes_sub l i n : bytes l -> bytes (firstn n (skipn i l)).
Proof.
  intros H. apply Forall_forall. intros x I. unfold bytes in H. rewrite Forall_forall in H. apply H.
  assert (J : In x (skipn i l)) by (rewrite <- (firstn_skipn n (skipn i l)); apply in_or_app; left; exact I).
  rewrite <- (firstn_skipn i l). apply in_or_app. right. exact J.
Qed.
Lemma rd32_lt buf off x : bytes buf -> rd32 buf off = Ret x -> x < 2 ^ 32.
Proof.
  intros H R. unfold rd32 in R. apply bind_ret in R. destruct R as (l & S & E). injection E as <-.
  assert (B := slice_bound _ _ _ _ S). unfold slice in S. destruct (_ <=? _); [|discriminate].
  assert (E : l = firstn (N.to_nat 4) (skipn (N.to_nat off) buf)) by congruence. clear S. subst l.
  eapply N.lt_le_trans; [apply of_le_lt, bytes_sub, H|]. rewrite firstn_length, skipn_length.
  replace (2 ^ 32) with (256 ^ 4) by reflexivity. apply N.pow_le_mono_r; [discriminate|]. lia.
Qed.
Definition stands (len : N) (st : loader) := l_file_offset st <= len + 4.
Lemma step_stands buf st st' : bytes buf -> scan_step buf st = Ret (Next st') ->
  l_file_offset st <= l_file_offset st' <= N.of_nat (List.length buf) + 4.
Proof.
  intros Hb H. destruct (step_cases _ _ _ H) as (L & [->|[->|(ml & id & c & M & C & A)]]); [cbn; lia|cbn; lia|].
  apply add_keeps in A. cbn in A. destruct A as (_ & _ & ->). apply crc_range_bound in C. pose proof (rd32_lt _ _ _ Hb M) as U.
  rewrite u32_mod in C. change (2 ^ 32) with 4294967296 in *.
  destruct (N.lt_ge_cases ml 4); [lia|]. replace (ml + 4294967296 - 4) with (ml - 4 + 1 * 4294967296) in C by lia.
  rewrite N.mod_add, N.mod_small in C by lia. lia.
Qed.
Lemma run_end fuel buf : forall st st', run fuel buf st = Some (Ret st') -> N.of_nat (List.length buf) <= l_file_offset st'.
Proof.
  induction fuel as [|k IH]; intros st st'; cbn [run]; [discriminate|].
  destruct (scan_step buf st) as [[|s]|] eqn:E; [|apply IH|discriminate].
  intros X; injection X as <-. unfold scan_step in E.
  destruct (N.ltb_spec (l_file_offset st) (N.of_nat (List.length buf))) as [L|L]; cbn [negb] in E; [|exact L].
  apply bind_ret in E. destruct E as (mk & _ & E). destruct (mk =? RECORDER_HEADER); cbn [negb] in E; [|discriminate].
  apply bind_ret in E. destruct E as (ml & _ & E). apply bind_ret in E. destruct E as (c & _ & E).
  destruct (c =? 0); cbn [negb] in E; [|discriminate]. binds. discriminate.
Qed.
Lemma header_off buf st st1 off : load_header buf st = Ret (st1, off) -> off <= N.of_nat (List.length buf).
Proof.
  unfold load_header. intros H. apply bind_ret in H. destruct H as (mk & _ & H). destruct (_ =? _); cbn [negb] in H; [|injection H as _ <-; lia].
  apply bind_ret in H. destruct H as (hl & _ & H). apply bind_ret in H. destruct H as (c & _ & H).
  destruct (c =? 0); cbn [negb] in H; [|injection H as _ <-; lia].
  apply bind_ret in H. destruct H as (v & _ & H). apply bind_ret in H. destruct H as (n & _ & H).
  apply bind_ret in H. destruct H as (r & _ & H). apply bind_ret in H. destruct H as (em & E & H).
  destruct (em =? _); cbn [negb] in H; [|injection H as _ <-; lia]. injection H as _ <-.
  unfold rd32 in E. apply bind_ret in E. destruct E as (l & E & _). apply slice_bound in E. rewrite u32_mod.
  pose proof (N.mod_le (snd r + 4) (2 ^ 32) ltac:(discriminate)). lia.
Qed.
Lemma load_offset fuel file st0 st : bytes file -> load_file fuel (Some file) st0 = Some (Ret st) -> l_err st <> E_NO_HEADER ->
  N.of_nat (List.length file) <= l_file_offset st <= N.of_nat (List.length file) + 4.
Proof.
  intros B. unfold load_file. destruct (load_header file _) as [[st1 off]|] eqn:E; [|discriminate].
  apply header_off in E. destruct (off =? 0); [intros H; injection H as <-; cbn; congruence|].
  intros H _. split; [exact (run_end _ _ _ _ H)|].
  apply (run_inv (stands (N.of_nat (List.length file))) file) with (3 := H).
  - intros s s' _ X. apply (step_stands _ _ _ B X).
  - unfold stands. cbn. lia.
Qed.

(** ** a loaded recording of registrable sets *)
Lemma add_errs_data cfg hdr st0 : l_data (started cfg hdr st0) = l_data st0. Proof. reflexivity. Qed.
Lemma loaded_shape cfg hdr post fuel st : cfg <> [] -> Forall wf_config cfg -> write_header cfg = Some hdr ->
  load_file fuel (Some (hdr ++ post)) new_loader = Some (Ret st) ->
  NoDup (keys (l_data st)) /\ l_header_size st = N.of_nat (List.length hdr - 4).
Proof.
  intros H1 H2 H3 H. rewrite (load_file_header cfg) in H by assumption.
  apply (run_inv (fun s => NoDup (keys (l_data s)) /\ l_header_size s = N.of_nat (List.length hdr - 4)) (hdr ++ post)) with (3 := H).
  - intros s s' [D L] X. destruct (step_keeps _ _ _ X) as [K ->]. auto.
  - split; [constructor|reflexivity].
Qed.
Lemma held_sets cfg ms st : NoDup (keys (l_data st)) -> holds cfg ms st -> none_else cfg st ->
  (List.length (l_data st) <= List.length cfg)%nat /\
  Forall (fun p => exists dc, In dc cfg /\ fst p = dc_id dc /\ of_id (dc_id dc) ms <> [] /\ snd p = expected dc (of_id (dc_id dc) ms)) (l_data st).
Proof.
  intros D H N0.
  assert (F : Forall (fun p => exists dc, In dc cfg /\ fst p = dc_id dc /\ of_id (dc_id dc) ms <> [] /\ snd p = expected dc (of_id (dc_id dc) ms)) (l_data st)).
  { apply Forall_forall. intros [k v] I. pose proof (find_key _ _ _ D I) as E. cbn [fst snd].
    destruct (in_dec N.eq_dec k (map dc_id cfg)) as [J|J]; [|rewrite (N0 _ J) in E; discriminate].
    apply in_map_iff in J. destruct J as (dc & <- & J). specialize (H dc J). rewrite E in H.
    exists dc. destruct (of_id (dc_id dc) ms) eqn:O; [discriminate|]. injection H as ->. repeat split; auto; discriminate. }
  split; [|exact F]. rewrite <- (map_length fst), <- (map_length dc_id). apply NoDup_incl_length; [exact D|].
  intros k I. apply in_map_iff in I. destruct I as (p & <- & I). rewrite Forall_forall in F. destruct (F p I) as (dc & J & -> & _).
  apply in_map, J.
Qed.

(** ** lengths *)
Lemma dec_length fuel : forall n k, n < 10 ^ N.of_nat (S k) -> (List.length (dec fuel n) <= S k)%nat.
Proof.
  induction fuel as [|f IH]; intros n k H; cbn [dec]; [cbn; lia|]. destruct (N.ltb_spec n 10); [cbn; lia|].
  destruct k as [|k]; [rewrite N.pow_1_r in H; lia|]. rewrite app_length. cbn [List.length].
  specialize (IH (n / 10) k). rewrite Nat.add_1_r. apply le_n_S, IH.
  apply N.div_lt_upper_bound; [discriminate|]. rewrite Nat2N.inj_succ, N.pow_succ_r' in H. exact H.
Qed.
Lemma hexa_length fuel : forall n k, n < 16 ^ N.of_nat (S k) -> (List.length (hexa fuel n) <= S k)%nat.
Proof.
  induction fuel as [|f IH]; intros n k H; cbn [hexa]; [cbn; lia|]. destruct (N.ltb_spec n 16); [cbn; lia|].
  destruct k as [|k]; [rewrite N.pow_1_r in H; lia|]. rewrite app_length. cbn [List.length].
  specialize (IH (n / 16) k). rewrite Nat.add_1_r. apply le_n_S, IH.
  apply N.div_lt_upper_bound; [discriminate|]. rewrite Nat2N.inj_succ, N.pow_succ_r' in H. exact H.
Qed.
Lemma pad_length w t : List.length (pad w t) = Nat.max w (List.length t).
Proof. unfold pad. rewrite app_length, repeat_length. lia. Qed.
Lemma string_of_length l : In 0 l -> (List.length (string_of l) < List.length l)%nat.
Proof.
  induction l as [|b l IH]; intros I; [destruct I|]. cbn [string_of List.length]. destruct (N.eqb_spec b 0) as [->|n]; [cbn; lia|].
  destruct I as [E|I]; [congruence|]. specialize (IH I). cbn [List.length]. lia.
Qed.
Lemma set_length p : (List.length (d_name (snd p)) <= 16)%nat -> fst p < 2 ^ 32 -> N.of_nat (List.length (d_time (snd p))) < 2 ^ 64 ->
  d_cnt (snd p) < 2 ^ 31 -> (List.length (set_text p) <= 60)%nat.
Proof.
  intros H1 H2 H3 H4. unfold set_text. rewrite signed_small by exact H4. rewrite !app_length, !pad_length. unfold chars_of. rewrite map_length.
  assert (A : (List.length (hexadecimal (fst p)) <= 8)%nat) by (apply hexa_length; exact H2).
  assert (B : (List.length (decimal (N.of_nat (List.length (d_time (snd p))))) <= 20)%nat).
  { apply dec_length. eapply N.lt_trans; [exact H3|reflexivity]. }
  assert (C : (List.length (print_int (Z.of_N (d_cnt (snd p)))) <= 10)%nat).
  { rewrite <- decimal_int. apply dec_length. eapply N.lt_trans; [exact H4|reflexivity]. }
  change (List.length [tab]) with 1%nat. change (List.length (str " ")) with 1%nat. lia.
Qed.
Lemma ended_length ls k : Forall (fun l => (List.length l <= k)%nat) ls -> len (ended ls) <= N.of_nat (List.length ls) * (N.of_nat k + 1).
Proof.
  induction 1 as [|l ls H F IH]; [reflexivity|]. unfold ended in *. cbn [map List.concat List.length].
  rewrite !len_app. unfold len in *. change (List.length [newline]) with 1%nat. lia.
Qed.

(** ** records of sets that the header does not describe *)
Definition noted (id off : N) (st : loader) : loader := set_offset off (add_str (S_not_configured id) st).
Lemma scan_unknown m old_cs pre f post st : small m -> m_id m < 2 ^ 32 -> record_bytes m old_cs = Some f ->
  find (m_id m) (l_cfgs st) = None -> l_file_offset st = N.of_nat (List.length pre) ->
  scan_step (pre ++ f ++ post) st = Ret (Next (noted (m_id m) (N.of_nat (List.length (pre ++ f))) st)).
Proof.
  intros Hs Hid32 Hf Hcfg Hoff.
  destruct (record_bytes_shape m old_cs Hs) as [c [Hc [Ec Ef]]].
  rewrite Ef in Hf. apply some_inj in Hf.
  assert (Lf : List.length f = (28 + List.length (payload_bytes m))%nat) by (subst f; apply frame_length).
  unfold scan_step. rewrite Hoff.
  destruct (N.ltb_spec (N.of_nat (List.length pre)) (N.of_nat (List.length (pre ++ f ++ post)))) as [_|B];
    [|rewrite !app_length, Lf in B; lia].
  cbn [negb].
  set (P := payload_bytes m) in *.
  assert (Esz : u32 (msg_sizeof m) = N.of_nat (List.length f)).
  { unfold small in Hs. fold P in Hs. unfold msg_sizeof. fold P. rewrite u32_id by lia. lia. }
  assert (Hsz : N.of_nat (List.length f) < 2^32) by (unfold small in Hs; fold P in Hs; lia).
  set (tail := be32 c ++ le32 RECORDER_END_MARK) in *.
  assert (E1 : pre ++ f ++ post = pre ++ le32 RECORDER_HEADER ++
     (le32 (m_id m) ++ le_bytes 8 (m_timestamp m) ++ le32 (N.of_nat (List.length f)) ++ P ++ tail ++ post)).
  { subst f. unfold msg_prefix. rewrite Esz. fold P. rewrite <- !app_assoc. reflexivity. }
  rewrite E1 at 1. rewrite rd32_mid by reflexivity. cbn [bind]. rewrite N.eqb_refl. cbn [negb].
  assert (E2 : pre ++ f ++ post = (pre ++ le32 RECORDER_HEADER) ++ le32 (m_id m) ++
     (le_bytes 8 (m_timestamp m) ++ le32 (N.of_nat (List.length f)) ++ P ++ tail ++ post)).
  { rewrite E1, <- !app_assoc. reflexivity. }
  assert (E4 : pre ++ f ++ post = (((pre ++ le32 RECORDER_HEADER) ++ le32 (m_id m)) ++
     le_bytes 8 (m_timestamp m)) ++ le32 (N.of_nat (List.length f)) ++ (P ++ tail ++ post)).
  { rewrite E1, <- !app_assoc. reflexivity. }
  assert (E6 : pre ++ f ++ post = pre ++ (msg_prefix m ++ be32 c) ++ (le32 RECORDER_END_MARK ++ post)).
  { subst f. unfold tail. rewrite <- !app_assoc. reflexivity. }
  assert (R16 : rd32 (pre ++ f ++ post) (N.of_nat (List.length pre) + 16) = Ret (N.of_nat (List.length f))).
  { rewrite E4. apply rd32_mid; auto. rewrite !app_length, !le32_length, le_bytes_length. lia. }
  rewrite R16. cbn [bind].
  rewrite u32_sub by lia.
  rewrite E6 at 1. rewrite (crc_range_mid _ _ _ _ _ 0); auto;
    [|rewrite app_length, msg_prefix_length; fold P; cbn [be32 List.length]; lia
     |apply residue_iff; auto; apply msg_prefix_bytes].
  cbn [bind]. rewrite N.eqb_refl. cbn [negb].
  rewrite E2 at 1. rewrite rd32_mid by (auto; rewrite app_length, le32_length; lia). cbn [bind].
  unfold add_data. cbn [set_offset l_cfgs l_data]. rewrite Hcfg. cbn [bind]. unfold noted, add_str, set_offset. cbn.
  do 3 f_equal. rewrite app_length. lia.
Qed.
Lemma run_unknown : forall ms olds fs pre st, Forall small ms -> frames ms olds = Some fs ->
  Forall (fun m => m_id m < 2 ^ 32 /\ find (m_id m) (l_cfgs st) = None) ms -> l_file_offset st = N.of_nat (List.length pre) ->
  exists st', (forall post k, run (List.length ms + k) (pre ++ fs ++ post) st = run k (pre ++ fs ++ post) st') /\
    l_strs st' = l_strs st ++ map (fun m => S_not_configured (m_id m)) ms /\ l_data st' = l_data st /\
    l_file_offset st' = N.of_nat (List.length (pre ++ fs)).
Proof.
  induction ms as [|m ms IH]; intros olds fs pre st Hs Hf Hu Ho.
  - cbn [frames] in Hf. apply some_inj in Hf. subst fs. exists st. rewrite !app_nil_r. cbn [List.length Nat.add map app]. repeat split; auto.
  - destruct olds as [|o olds]; [discriminate|]. cbn [frames] in Hf.
    destruct (record_bytes m o) as [f|] eqn:Ef; [|discriminate].
    destruct (frames ms olds) as [fs'|] eqn:Efs; [|discriminate].
    apply some_inj in Hf. subst fs. destruct (Forall_inv Hu) as [U1 U2].
    destruct (IH olds fs' (pre ++ f) (noted (m_id m) (N.of_nat (List.length (pre ++ f))) st) (Forall_inv_tail Hs) Efs) as (st' & R & A & B & C).
    { exact (Forall_inv_tail Hu). } { reflexivity. }
    exists st'. split; [|split; [|split]].
    + intros post k. cbn [List.length Nat.add run]. rewrite <- !app_assoc.
      rewrite (scan_unknown m o pre f (fs' ++ post) st (Forall_inv Hs)) by auto. rewrite (app_assoc pre). apply R.
    + rewrite A. cbn [noted set_offset add_str l_strs map]. rewrite <- app_assoc. reflexivity.
    + rewrite B. reflexivity.
    + rewrite C, <- app_assoc. reflexivity.
Qed.
Lemma load_unknown cfg hdr ms olds fs : cfg <> [] -> Forall wf_config cfg -> NoDup (map dc_id cfg) -> write_header cfg = Some hdr ->
  ms <> [] -> Forall (fun m => small m /\ m_id m < 2 ^ 32 /\ ~ In (m_id m) (map dc_id cfg)) ms -> frames ms olds = Some fs ->
  exists st, returns (Some (hdr ++ fs)) new_loader st /\ l_strs st = map (fun m => S_not_configured (m_id m)) ms /\ l_data st = [].
Proof.
  intros H1 H2 H3 H4 Hn Hm Hf.
  assert (Hs : Forall small ms) by (eapply Forall_impl; [|exact Hm]; cbn; tauto).
  destruct ms as [|m ms]; [congruence|].
  destruct (frames_start m ms olds fs (Forall_inv Hs) Hf) as [tl Htl].
  set (st1 := set_offset (N.of_nat (List.length hdr)) (started cfg hdr new_loader)).
  destruct (run_unknown (m :: ms) olds fs hdr st1 Hs Hf) as (st' & R & A & B & C); [|reflexivity|].
  { eapply Forall_impl; [|exact Hm]. cbn. intros x (_ & X & Y). split; [exact X|]. unfold st1. cbn [set_offset started l_cfgs].
    rewrite find_add_cfgs. cbn [new_loader l_cfgs find List.find].
    destruct (List.find _ cfg) as [dc|] eqn:E; [|reflexivity]. apply List.find_some in E. destruct E as [I J].
    apply N.eqb_eq in J. exfalso. apply Y. rewrite <- J. apply in_map, I. }
  exists st'. split; [|split; [exact A|exact B]].
  exists (4 + (List.length (m :: ms) + 1))%nat.
  rewrite Htl at 1. rewrite (load_start cfg) by auto. rewrite <- Htl. fold st1.
  specialize (R [] 1%nat). rewrite app_nil_r in R. rewrite R. cbn [run]. unfold scan_step. rewrite C.
  destruct (N.ltb_spec (N.of_nat (List.length (hdr ++ fs))) (N.of_nat (List.length (hdr ++ fs)))); [lia|]. reflexivity.
Qed.
Lemma ended_least ls k : Forall (fun l => (k <= List.length l)%nat) ls -> N.of_nat (List.length ls) * (N.of_nat k + 1) <= len (ended ls).
Proof.
  induction 1 as [|l ls H F IH]; [reflexivity|]. unfold ended in *. cbn [map List.concat List.length].
  rewrite !len_app. unfold len in *. change (List.length [newline]) with 1%nat. lia.
Qed.
Lemma many_complaints fn st : 133 <= N.of_nat (List.length (l_strs st)) ->
  (forall e, In e (l_strs st) -> exists id, e = S_not_configured id) -> summary fn st = None.
Proof.
  intros H F. rewrite summary_lines. destruct (N.leb_spec (len (ended (lines fn st)) + 1) 4096) as [L|L]; [|reflexivity]. exfalso.
  unfold lines in L. rewrite !ended_app, !len_app in L. unfold error_lines in L.
  destruct (l_strs st) as [|e es] eqn:E; [cbn in H; lia|].
  change (str "Errors:" :: map (complaint fn) (e :: es)) with ([str "Errors:"] ++ map (complaint fn) (e :: es)) in L.
  rewrite ended_app, len_app in L.
  assert (K : N.of_nat (List.length (map (complaint fn) (e :: es))) * (30 + 1) <= len (ended (map (complaint fn) (e :: es)))).
  { apply (ended_least _ 30). apply Forall_forall. intros t I. apply in_map_iff in I. destruct I as (x & <- & I).
    destruct (F x I) as (id & ->). cbn [complaint]. rewrite app_length. change (List.length (str "current id is not configured:")) with 29%nat.
    destruct (decimal_spec id) as (_ & D & _). destruct (decimal id); [congruence|]. cbn [List.length]. lia. }
  rewrite map_length in K. lia.
Qed.
