(** Properties C136, C137: the summary of a recording and the progress of loading it.
    Models: LoaderModel, SummaryModel.  Specification: SummarySpec, LoaderSpec, TextSpec. *)
From Coq Require Import NArith ZArith QArith List Ascii String Sorted Permutation Lia Bool.
From Verif Require Import CrcModel CrcSpec CrcProofs RecorderModel LoaderModel LoaderSpec LoaderProofs LoaderProofs2 LoaderProofs3 LoaderProofs4 RecorderLayout RecorderExtra PropRecorder
  TextModel TextSpec TextProofs SummaryModel SummarySpec SummaryProofs SummaryLoad.
Import ListNotations.
Open Scope N_scope.
Open Scope list_scope.

(** * C136 *)
(** a summary that is delivered has a line with the size of the header, one with the number of data sets, the titles of the
    columns, one line for each data set in ascending order of the identifiers, and one for each error *)
Theorem C136_lists : forall filename st t, ~ In "010"%char filename ->
  Forall (fun p => readable_name (d_name (snd p)) /\ d_cnt (snd p) < 2 ^ 31) (l_data st) -> summary filename st = Some t ->
  exists size rest q count qc sets told, text_lines t =
      [[]; str "Header size " ++ size ++ rest; str "Valid dataset(" ++ count ++ str ") incuding:";
       "009"%char :: str "         dataset         ID     size  subsets"] ++
      told ++ match l_strs st with [] => [] | es => str "Errors:" :: map (complaint filename) es end /\
    read_number size = Some q /\ (q == inject_Z (Z.of_N (l_header_size st)))%Q /\
    read_number count = Some qc /\ (qc == inject_Z (Z.of_nat (List.length (l_data st))))%Q /\
    ascending sets (l_data st) /\ Forall2 tells_of sets told.
Proof.
  intros fn st t F H E. pose proof (summary_text_lines fn st t F ltac:(eapply Forall_impl; [|exact H]; cbn; tauto) E) as L.
  destruct (read_decimal (l_header_size st)) as (q & Q1 & Q2).
  assert (C : exists qc, read_number (two_digits (N.of_nat (List.length (l_data st)))) = Some qc /\ (qc == inject_Z (Z.of_nat (List.length (l_data st))))%Q).
  { destruct (read_decimal (N.of_nat (List.length (l_data st)))) as (qc & C1 & C2). rewrite nat_N_Z in C2. unfold two_digits.
    destruct (N.ltb_spec (N.of_nat (List.length (l_data st))) 10) as [X|X]; [|eauto].
    assert (I : In (List.length (l_data st)) (seq 0 10)) by (apply in_seq; lia).
    clear C1 C2 X. cbn [seq] in I. repeat (destruct I as [<-|I]; [eexists; split; [vm_compute; reflexivity|reflexivity]|]). destruct I. }
  destruct C as (qc & C1 & C2).
  exists (decimal (l_header_size st)), ([tab] ++ str "Recorder version:" ++ print_fixed 2 (f32_num (l_version st)) ++ str " "), q,
    (two_digits (N.of_nat (List.length (l_data st)))), qc, (in_order (l_data st)), (map set_text (in_order (l_data st))).
  split; [rewrite L; unfold lines, error_lines; destruct (l_strs st); reflexivity|]. split; [exact Q1|]. split; [exact Q2|]. split; [exact C1|]. split; [exact C2|].
  split; [split; [apply in_order_perm|apply in_order_sorted]|].
  assert (G : Forall (fun p => readable_name (d_name (snd p)) /\ d_cnt (snd p) < 2 ^ 31) (in_order (l_data st))).
  { apply Forall_forall. intros p I. rewrite Forall_forall in H. apply H. exact (Permutation_in _ (in_order_perm _) I). }
  induction G as [|p ps [A B] G IH]; constructor; [apply set_told; assumption|exact IH].
Qed.
Print Assumptions C136_lists.
(** a recording of the registered sets: the summary is delivered and shows the sets of which there are records, without
    errors.  The size shown (1352) is four less than that of the header (1356 bytes). *)
Theorem C136_registered : forall ms olds fs filename, ms <> [] ->
  Forall (fun m => exists dc, In dc registered /\ record_of dc m) ms -> frames ms olds = Some fs ->
  N.of_nat (List.length ms) < 2 ^ 64 -> ~ In "010"%char filename ->
  exists st t sets told, returns (Some (registered_header ++ fs)) new_loader st /\ summary filename st = Some t /\
    (exists count, text_lines t = [[]; str "Header size 1352" ++ "009"%char :: str "Recorder version:1.02 "; count;
       "009"%char :: str "         dataset         ID     size  subsets"] ++ told) /\
    Forall2 tells_of sets told /\ StronglySorted (fun a b => fst a < fst b) sets /\
    (forall id ds, In (id, ds) sets <-> exists dc, In dc registered /\ id = dc_id dc /\
       of_id id ms <> [] /\ ds = expected dc (of_id id ms)).
Proof.
  intros ms olds fs fn Hm Hr Hf Hn Hfn.
  destruct (round_trip_gen registered registered_header ms olds fs [] new_loader registered_nonempty registered_wf registered_nodup
    registered_written Hm Hr Hf (load_new registered) (holds_new registered) (none_else_new registered))
    as (st & (fuel & Ld) & A & B & _ & S0 & V & _ & _). cbn [app] in A.
  destruct (loaded_shape registered registered_header fs fuel st registered_nonempty registered_wf registered_written Ld) as (D & Sz).
  destruct (held_sets registered ms st D A B) as (Cnt & Sh).
  assert (RB : Forall (fun dc => readable_name (string_of (dc_name dc)) /\ (List.length (string_of (dc_name dc)) <= 16)%nat /\
     N.of_nat (List.length (dc_items dc)) < 2 ^ 31 /\ dc_id dc < 2 ^ 32) registered).
  { apply Forall_forall. intros dc I.
    assert (W : forallb (fun dc => let s := string_of (dc_name dc) in
      (negb (match s with [] => true | _ => false end) && forallb (fun b => (32 <? b) && (b <? 127)) s && (Nat.leb (List.length s) 16) &&
       (N.of_nat (List.length (dc_items dc)) <? 2 ^ 31) && (dc_id dc <? 2 ^ 32))%bool) registered = true) by (vm_compute; reflexivity).
    rewrite forallb_forall in W. specialize (W dc I). cbv zeta in W. rewrite !andb_true_iff in W. destruct W as ((((W1 & W2) & W3) & W4) & W5).
    split; [split|].
    - intros X. rewrite X in W1. discriminate.
    - apply Forall_forall. intros b Hb. rewrite forallb_forall in W2. specialize (W2 b Hb). rewrite andb_true_iff, !N.ltb_lt in W2. exact W2.
    - split; [apply Nat.leb_le, W3|]. split; apply N.ltb_lt; assumption. }
  assert (P : Forall (fun p => readable_name (d_name (snd p)) /\ d_cnt (snd p) < 2 ^ 31 /\ (List.length (set_text p) <= 60)%nat) (l_data st)).
  { eapply Forall_impl; [|exact Sh]. cbv beta. intros p (dc & I & E1 & _ & E2). rewrite Forall_forall in RB. destruct (RB dc I) as (R1 & R2 & R3 & R4).
    assert (M1 : d_name (snd p) = string_of (dc_name dc)) by (rewrite E2; reflexivity).
    assert (M2 : d_cnt (snd p) = N.of_nat (List.length (dc_items dc))) by (rewrite E2; reflexivity).
    split; [rewrite M1; exact R1|]. split; [rewrite M2; exact R3|].
    apply set_length; [rewrite M1; exact R2|rewrite E1; exact R4| |rewrite M2; exact R3]. rewrite E2.
    cbn [expected d_time]. rewrite map_length. eapply N.le_lt_trans; [|exact Hn].
    assert (List.length (of_id (dc_id dc) ms) <= List.length ms)%nat by (unfold of_id; clear; induction ms as [|m l IH]; cbn; [lia|destruct (_ =? _); cbn; lia]). lia. }
  assert (Hs : l_header_size st = 1352) by (rewrite Sz; vm_compute; reflexivity).
  assert (K : summary fn st = Some (ended (lines fn st))).
  { rewrite summary_lines. destruct (N.leb_spec (SummaryProofs.len (ended (lines fn st)) + 1) 4096) as [X|X]; [reflexivity|exfalso].
    unfold lines, error_lines in X. rewrite S0, !ended_app, !len_app in X.
    assert (T1 : SummaryProofs.len (ended (map set_text (in_order (l_data st)))) <= 8 * 61).
    { eapply N.le_trans; [apply (ended_length _ 60)|].
      - apply Forall_forall. intros t I. apply in_map_iff in I. destruct I as (p & <- & I). rewrite Forall_forall in P.
        apply P. exact (Permutation_in _ (in_order_perm _) I).
      - rewrite map_length, (Permutation_length (in_order_perm _)). change (List.length registered) with 8%nat in Cnt.
        change (N.of_nat 60 + 1) with 61. nia. }
    assert (T2 : SummaryProofs.len (ended [[]; head_line st; count_line st; column_line]) <= 200).
    { unfold head_line, count_line. rewrite Hs, V.
      assert (T3 : (List.length (two_digits (N.of_nat (List.length (l_data st)))) <= 2)%nat).
      { unfold two_digits. change (List.length registered) with 8%nat in Cnt. destruct (N.ltb_spec (N.of_nat (List.length (l_data st))) 10); [|lia].
        cbn [List.length]. apply le_n_S. apply dec_length. exact H. }
      assert (T4 : forall a b c d : text, SummaryProofs.len (ended [a; b; c; d]) = SummaryProofs.len a + SummaryProofs.len b + SummaryProofs.len c + SummaryProofs.len d + 4).
      { intros a b c d. unfold ended. cbn [map List.concat]. rewrite !len_app. change (SummaryProofs.len [newline]) with 1.
        change (SummaryProofs.len []) with 0. lia. }
      rewrite T4, !len_app. set (two := two_digits _) in *. clearbody two.
      assert (T5 : SummaryProofs.len (print_fixed 2 (f32_num RECORDER_VERSION_BITS)) = 4) by (vm_compute; reflexivity).
      assert (T6 : SummaryProofs.len (decimal 1352) = 4) by (vm_compute; reflexivity).
      assert (T7 : SummaryProofs.len two <= 2) by (unfold SummaryProofs.len; lia).
      rewrite T5, T6. change (SummaryProofs.len []) with 0. change (SummaryProofs.len column_line) with 46.
      change (SummaryProofs.len (str "Header size ")) with 12. change (SummaryProofs.len [tab]) with 1.
      change (SummaryProofs.len (str "Recorder version:")) with 17. change (SummaryProofs.len (str " ")) with 1.
      change (SummaryProofs.len (str "Valid dataset(")) with 14. change (SummaryProofs.len (str ") incuding:")) with 11. lia. }
    change (SummaryProofs.len (ended [])) with 0 in X. lia. }
  exists st, (ended (lines fn st)), (in_order (l_data st)), (map set_text (in_order (l_data st))).
  split; [exists fuel; exact Ld|]. split; [exact K|]. split.
  { exists (count_line st).
    rewrite (summary_text_lines fn st _ Hfn ltac:(eapply Forall_impl; [|exact P]; cbn; tauto) K).
    unfold lines, error_lines. rewrite S0, app_nil_r.
    replace (head_line st) with (str "Header size 1352" ++ "009"%char :: str "Recorder version:1.02 "); [reflexivity|].
    unfold head_line. rewrite Hs, V. vm_compute. reflexivity. }
  assert (PO : forall p, In p (in_order (l_data st)) <-> In p (l_data st)).
  { intros p. split; apply Permutation_in; [apply in_order_perm|symmetry; apply in_order_perm]. }
  split.
  { assert (G : Forall (fun p => readable_name (d_name (snd p)) /\ d_cnt (snd p) < 2 ^ 31) (in_order (l_data st))).
    { apply Forall_forall. intros p I. rewrite Forall_forall in P. apply PO, P in I. tauto. }
    clear -G. induction G as [|p ps [A B] G IH]; constructor; [apply set_told; assumption|exact IH]. }
  split.
  { assert (ND : NoDup (map fst (in_order (l_data st)))).
    { eapply Permutation_NoDup; [|exact D]. apply Permutation_map. symmetry. apply in_order_perm. }
    pose proof (in_order_sorted (l_data st)) as SS. clear PO. revert ND. induction SS as [|p ps SS IH F]; intros ND; constructor.
    - apply IH. inversion ND as [|? ? ? ND2]; exact ND2.
    - apply Forall_forall. intros q I. rewrite Forall_forall in F. specialize (F q I).
      assert (fst p <> fst q); [|lia]. intros X. inversion ND as [|? ? N1 _]; subst. apply N1. rewrite X. apply in_map, I. }
  intros id ds. rewrite PO. split.
  - intros I. rewrite Forall_forall in Sh. destruct (Sh _ I) as (dc & J & E1 & E2 & E3). cbn [fst snd] in *. subst. exists dc. auto.
  - intros (dc & J & -> & E2 & ->). specialize (A dc J). apply found_in. rewrite A. destruct (of_id (dc_id dc) ms); [congruence|reflexivity].
Qed.
Print Assumptions C136_registered.
(** REFUTED: with 133 records or more that the header does not describe the summary is written behind the end of its buffer *)
Theorem C136_overrun_refuted : forall ms olds fs filename, 133 <= N.of_nat (List.length ms) ->
  Forall (fun m => 28 + N.of_nat (List.length (payload_bytes m)) < 2 ^ 32 /\ m_id m < 2 ^ 32 /\ ~ In (m_id m) (map dc_id registered)) ms ->
  frames ms olds = Some fs ->
  exists st, returns (Some (registered_header ++ fs)) new_loader st /\ summary filename st = None.
Proof.
  intros ms olds fs fn Hn Hm Hf.
  destruct (load_unknown registered registered_header ms olds fs registered_nonempty registered_wf registered_nodup registered_written) as (st & R & S0 & _).
  - destruct ms; [cbn in Hn; lia|discriminate].
  - exact Hm.
  - exact Hf.
  - exists st. split; [exact R|]. apply many_complaints; rewrite S0; [rewrite map_length; exact Hn|].
    intros e I. apply in_map_iff in I. destruct I as (m & <- & _). eauto.
Qed.
Print Assumptions C136_overrun_refuted.
Example C136_case : [ex_ahrs; ex_gnss] <> [] /\ Forall (fun m => exists dc, In dc registered /\ record_of dc m) [ex_ahrs; ex_gnss] /\
  frames [ex_ahrs; ex_gnss] [0; 7] = Some ex_file_frames.
Proof. split; [discriminate|]. split; [exact ex_records|exact ex_frames]. Qed.
Definition stray : message := {| m_id := 77; m_timestamp := 5; m_items := [(Tu8, 3)] |}.
Example C136_overrun_case : exists fs, frames (repeat stray 133) (repeat 0 133) = Some fs /\
  Forall (fun m => 28 + N.of_nat (List.length (payload_bytes m)) < 2 ^ 32 /\ m_id m < 2 ^ 32 /\ ~ In (m_id m) (map dc_id registered)) (repeat stray 133).
Proof.
  eexists. split; [vm_compute; reflexivity|]. apply Forall_forall. intros m I. apply repeat_spec in I. subst m.
  split; [vm_compute; reflexivity|]. split; [reflexivity|]. vm_compute. intros X. repeat (destruct X as [X|X]; [discriminate|]). exact X.
Qed.

(** * C137 *)
(** while a file is loaded the progress never goes back *)
Theorem C137_monotone : forall file st st' p p', bytes file -> scan_step file st = Ret (Next st') ->
  get_progress (N.of_nat (List.length file)) st = Some p -> get_progress (N.of_nat (List.length file)) st' = Some p' -> (p <= p')%Z.
Proof.
  intros file st st' p p' B H. unfold get_progress. destruct (N.eqb_spec (N.of_nat (List.length file)) 0); [discriminate|].
  intros E E'. apply some_inj in E, E'. subst p p'. pose proof (step_stands _ _ _ B H). apply N2Z.inj_le. apply N.div_le_mono; [assumption|].
  apply N.mul_le_mono_l, N.add_le_mono_r. exact (proj1 H0).
Qed.
Print Assumptions C137_monotone.
(** after a file with a valid header was loaded completely it is at least 100, and exactly 100 for files of more than 500 bytes *)
Theorem C137_complete_partial : forall fuel file st0 st, bytes file -> file <> [] ->
  load_file fuel (Some file) st0 = Some (Ret st) -> l_err st <> E_NO_HEADER ->
  exists p, get_progress (N.of_nat (List.length file)) st = Some p /\ (100 <= p <= 100 + 500 / Z.of_nat (List.length file))%Z /\
    (500 < N.of_nat (List.length file) -> p = 100%Z).
Proof.
  intros fuel file st0 st B F H E. pose proof (load_offset _ _ _ _ B H E) as [L U].
  assert (P : 0 < N.of_nat (List.length file)) by (destruct file; [congruence|cbn [List.length]; lia]).
  unfold get_progress. destruct (N.eqb_spec (N.of_nat (List.length file)) 0) as [X|X]; [lia|]. set (n := N.of_nat (List.length file)) in *.
  replace (Z.of_nat (List.length file)) with (Z.of_N n) by (unfold n; lia).
  eexists. split; [reflexivity|].
  assert (A : 100 <= 100 * (l_file_offset st + 1) / n) by (apply N.div_le_lower_bound; lia).
  assert (A2 : 100 * (l_file_offset st + 1) / n <= 100 + 500 / n).
  { replace (100 + 500 / n) with ((500 + 100 * n) / n) by (rewrite N.div_add by exact X; apply N.add_comm). apply N.div_le_mono; [exact X|]. lia. }
  assert (Q0 : Z.of_N (500 / n) = (500 / Z.of_N n)%Z) by (rewrite N2Z.inj_div; reflexivity).
  split; [lia|]. intros G. rewrite (N.div_small 500 n) in A2 by exact G. lia.
Qed.
Print Assumptions C137_complete_partial.
(** REFUTED: before a file could be opened it is a division by zero, also after LoadFile of a file that does not exist or is
    empty *)
Theorem C137_undefined_refuted : get_progress 0 new_loader = None /\
  (forall fuel st0, exists st, load_file fuel None st0 = Some (Ret st) /\ get_progress 0 st = None).
Proof. split; [reflexivity|]. intros fuel st0. eexists. split; reflexivity. Qed.
Print Assumptions C137_undefined_refuted.
(** REFUTED: the file without a header is at its end, but the progress is that of the first byte *)
Theorem C137_no_header_refuted : forall file st0, 100 < N.of_nat (List.length file) -> bytes file -> of_le (firstn 4 file) <> RECORDER_HEADER_START_MARK ->
  exists st, load_file 1 (Some file) st0 = Some (Ret st) /\ get_progress (N.of_nat (List.length file)) st = Some 0%Z.
Proof.
  intros file st0 L B M. unfold load_file, load_header, rd32, slice.
  destruct (N.leb_spec (0 + 4) (N.of_nat (List.length file))); [|lia]. cbn [bind].
  change (N.to_nat 0) with 0%nat. change (N.to_nat 4) with 4%nat. cbn [skipn].
  destruct (N.eqb_spec (of_le (firstn 4 file)) RECORDER_HEADER_START_MARK); [contradiction|]. cbn [negb]. rewrite N.eqb_refl.
  eexists. split; [reflexivity|]. unfold get_progress. destruct (N.eqb_spec (N.of_nat (List.length file)) 0); [lia|].
  cbn [l_file_offset set_err set_header_size set_offset]. rewrite N.div_small; [reflexivity|exact L].
Qed.
Print Assumptions C137_no_header_refuted.
Example C137_case : exists st fuel, load_file fuel (Some (registered_header ++ ex_file_frames)) new_loader = Some (Ret st) /\ l_err st = E_OK /\
  bytes (registered_header ++ ex_file_frames) /\ get_progress (N.of_nat (List.length (registered_header ++ ex_file_frames))) st = Some 100%Z.
Proof.
  destruct (C06_file_round_trip registered registered_header [ex_ahrs; ex_gnss] [0; 7] ex_file_frames
    registered_nonempty registered_wf registered_nodup registered_written ltac:(discriminate) ex_records ex_frames) as (st & (fuel & R) & _ & _ & E & _).
  assert (B : bytes (registered_header ++ ex_file_frames)).
  { apply Forall_forall. intros b I.
    assert (W : forallb (fun b => b <? 256) (registered_header ++ ex_file_frames) = true) by (vm_compute; reflexivity).
    rewrite forallb_forall in W. apply N.ltb_lt, W, I. }
  exists st, fuel. split; [exact R|]. split; [exact E|]. split; [exact B|].
  destruct (C137_complete_partial fuel _ new_loader st B ltac:(vm_compute; discriminate) R ltac:(rewrite E; discriminate)) as (p & P & _ & Q0).
  rewrite P. f_equal. apply Q0. vm_compute. reflexivity.
Qed.
