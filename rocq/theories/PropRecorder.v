(** Property theorems C01-C11 and C49-C52: checksum, record files, loader.
    Models: CrcModel, RecorderModel, LoaderModel.  Specifications: CrcSpec, LoaderSpec. *)
From Coq Require Import NArith ZArith String Ascii List Lia.
From Verif Require Import CrcModel CrcSpec CrcProofs RecorderModel LoaderModel LoaderSpec
  LoaderProofs LoaderProofs2 LoaderProofs3 LoaderProofs4 RecorderLayout RecorderExtra.
Import ListNotations.
Open Scope list_scope.
Open Scope N_scope.

(** * C01  the checksum is CRC-32/MPEG-2 *)
Theorem C01_table_crc_is_crc32 : forall data, bytes data ->
  exists c, crc32_table data = Some c /\ crc32_soft data = c /\ is_crc32 data c /\
            forall c', is_crc32 data c' -> c' = c.
Proof.
  intros data H. exists (crc32_soft data). split; [exact (crc32_table_soft data H)|].
  split; [reflexivity|]. split; [exact (crc32_soft_is_crc data H)|].
  intros c' Hc. exact (is_crc32_unique _ _ _ Hc (crc32_soft_is_crc data H)).
Qed.
Print Assumptions C01_table_crc_is_crc32.

Theorem C01_table_is_generated : crc_table = map (fun i => gen_entry (N.of_nat i)) (seq 0 256).
Proof. exact crc_table_generated. Qed.
Print Assumptions C01_table_is_generated.

(** the published check value of CRC-32/MPEG-2 for "123456789" *)
Example C01_check_value :
  crc32_table [0x31; 0x32; 0x33; 0x34; 0x35; 0x36; 0x37; 0x38; 0x39] = Some 0x0376E6E7.
Proof. vm_compute. reflexivity. Qed.

(** * C02  residue *)
Theorem C02_residue : forall data w, bytes data -> w < 2^32 ->
  (crc32_table (data ++ be32 w) = Some 0 <-> crc32_table data = Some w).
Proof. exact residue_iff. Qed.
Print Assumptions C02_residue.
Example C02_nonvacuous : crc32_table ([1; 2; 3] ++ be32 0x9D8195D6) = Some 0 \/
  exists w, w < 2^32 /\ crc32_table ([1; 2; 3] ++ be32 w) = Some 0.
Proof. right. eexists. split; [|apply residue_iff; [repeat constructor| |vm_compute; reflexivity]]; vm_compute; reflexivity. Qed.

(** * C03  bursts *)
Theorem C03_burst_detected : forall d d', bytes d -> bytes d' -> burst32 d d' ->
  crc32_table d = Some 0 -> crc32_table d' <> Some 0.
Proof. exact burst_detected. Qed.
Print Assumptions C03_burst_detected.

Theorem C03_burst_changes_checksum : forall d d', bytes d -> bytes d' -> burst32 d d' ->
  crc32_table d <> crc32_table d'.
Proof.
  intros d d' H H' Hb E. rewrite !crc32_table_soft in E by assumption.
  injection E as E. exact (burst_changes_crc d d' H H' Hb E).
Qed.
Print Assumptions C03_burst_changes_checksum.
Example C03_nonvacuous : burst32 [1; 2; 3; 4; 5; 6] [1; 2; 0xF3; 4; 5; 0xF6].
Proof.
  split; [reflexivity|]. split; [discriminate|].
  exists (bits [1; 2]), (bits [3; 4; 5; 6]), (bits [0xF3; 4; 5; 0xF6]), [].
  repeat split; vm_compute; reflexivity || lia.
Qed.

(** * C04  frame layout *)
Theorem C04_frame_layout : forall m old, m_id m < 2^32 -> m_timestamp m < 2^64 ->
  28 + N.of_nat (length (payload_bytes m)) < 2^32 ->
  exists f c, record_bytes m old = Some f /\
    length f = (28 + length (payload_bytes m))%nat /\
    sub f 0 4 = [0x55; 0xAA; 0x55; 0xAA] /\
    of_le (sub f 4 4) = m_id m /\
    of_le (sub f 8 8) = m_timestamp m /\
    of_le (sub f 16 4) = N.of_nat (length f) /\
    sub f 20 (length f - 28) = payload_bytes m /\
    is_crc32 (sub f 0 (length f - 8)) c /\
    sub f (length f - 8) 4 = be32 c /\
    sub f (length f - 4) 4 = [0x66; 0xAA; 0x66; 0xAA] /\
    crc32_table (sub f 0 (length f - 4)) = Some 0.
Proof. exact frame_layout. Qed.
Print Assumptions C04_frame_layout.
Example C04_nonvacuous : m_id ex_gnss < 2^32 /\ m_timestamp ex_gnss < 2^64 /\
  28 + N.of_nat (length (payload_bytes ex_gnss)) < 2^32 /\ length (payload_bytes ex_gnss) = 27%nat.
Proof. vm_compute. auto. Qed.

(** * C05  header round trip *)
Theorem C05_header_round_trip : forall cfg hdr post st0,
  cfg <> [] -> Forall wf_config cfg -> NoDup (map dc_id cfg) ->
  write_header cfg = Some hdr -> l_cfgs st0 = [] ->
  exists st off, load_header (hdr ++ post) st0 = Ret (st, off) /\
    (forall dc, In dc cfg -> find (dc_id dc) (l_cfgs st) = Some (expected_cfg dc)) /\
    (forall id, ~ In id (map dc_id cfg) -> find id (l_cfgs st) = None) /\
    l_version st = RECORDER_VERSION_BITS /\ l_header_size st = N.of_nat (length hdr) /\
    l_err st = l_err st0 /\ l_strs st = l_strs st0 /\ l_data st = l_data st0.
Proof. exact header_round_trip. Qed.
Print Assumptions C05_header_round_trip.
(** the header the recorder really writes *)
Example C05_nonvacuous : registered <> [] /\ Forall wf_config registered /\
  NoDup (map dc_id registered) /\ write_header registered = Some registered_header /\
  length registered_header = 1356%nat.
Proof.
  split; [exact registered_nonempty|]. split; [exact registered_wf|]. split; [exact registered_nodup|].
  split; [exact registered_written|]. vm_compute. reflexivity.
Qed.

(** the registered sets carry these names and columns, in the order of their ids *)
Definition text (s : string) : list N := firstn 16 (map N_of_ascii (list_ascii_of_string s) ++ repeat 0 16).
Theorem C05_names : map (fun c => (dc_name c, map (fun i => (ic_type i, ic_name i)) (dc_items c))) registered =
  map (fun x => (text (fst x), map (fun i => (fst i, text (snd i))) (snd x)))
    [("kalman", [(Tf32, "acce_bias_x"); (Tf32, "acce_bias_y"); (Tf32, "acce_bias_z"); (Tf32, "gyro_bias_x"); (Tf32, "gyro_bias_y"); (Tf32, "gyro_bias_z")]);
     ("meas_pos", [(Tf32, "z_x"); (Tf32, "z_y"); (Tf32, "z_z"); (Tf32, "r_x"); (Tf32, "r_y"); (Tf32, "r_z")]);
     ("result", [(Tu8, "status"); (Tf32, "pos_x"); (Tf32, "pos_y"); (Tf32, "pos_z"); (Tf32, "vn_x"); (Tf32, "vn_y"); (Tf32, "vn_z"); (Tf32, "atti_x"); (Tf32, "atti_y"); (Tf32, "atti_z")]);
     ("time_check", [(Tf32, "delta_time"); (Tf32, "average_time"); (Tf32, "max_delta_time"); (Tf32, "gnss_delay_time")]);
     ("ahrs", [(Tf32, "roll"); (Tf32, "pitch"); (Tf32, "heading")]);
     ("align", [(Tf32, "atti_x"); (Tf32, "atti_y"); (Tf32, "atti_z"); (Tf32, "vn_x"); (Tf32, "vn_y"); (Tf32, "vn_z"); (Tf32, "pos_x"); (Tf32, "pos_y"); (Tf32, "pos_z"); (Tf32, "v_norm"); (Tf32, "a_norm"); (Tu8, "is_static"); (Tu8, "yaw_align"); (Tu8, "level_align")]);
     ("imu", [(Tf32, "acce_x"); (Tf32, "acce_y"); (Tf32, "acce_z"); (Tf32, "gyro_x"); (Tf32, "gyro_y"); (Tf32, "gyro_z")]);
     ("gnss", [(Tf32, "pos_x"); (Tf32, "pos_y"); (Tf32, "pos_z"); (Tf32, "hdop"); (Tf32, "pdop"); (Tu16, "ns"); (Tu8, "mode"); (Tu32, "gnss_cnt")])]%string.
Proof. vm_compute. reflexivity. Qed.
Print Assumptions C05_names.

(** * C06  file round trip *)
Theorem C06_file_round_trip : forall cfg hdr ms olds fs,
  cfg <> [] -> Forall wf_config cfg -> NoDup (map dc_id cfg) -> write_header cfg = Some hdr ->
  ms <> [] -> Forall (fun m => exists dc, In dc cfg /\ record_of dc m) ms ->
  frames ms olds = Some fs ->
  exists st, returns (Some (hdr ++ fs)) new_loader st /\
    holds cfg ms st /\ none_else cfg st /\ l_err st = E_OK /\ l_strs st = [].
Proof.
  intros cfg hdr ms olds fs H1 H2 H3 H4 H5 H6 H7.
  destruct (round_trip_gen cfg hdr ms olds fs [] new_loader H1 H2 H3 H4 H5 H6 H7
     (load_new cfg) (holds_new cfg) (none_else_new cfg)) as (st & A & B & C & D & E & _).
  exists st. auto.
Qed.
Print Assumptions C06_file_round_trip.
Example C06_nonvacuous : [ex_ahrs; ex_gnss] <> [] /\
  Forall (fun m => exists dc, In dc registered /\ record_of dc m) [ex_ahrs; ex_gnss] /\
  frames [ex_ahrs; ex_gnss] [0; 7] = Some ex_file_frames /\ length ex_file_frames = 95%nat.
Proof.
  split; [discriminate|]. split; [exact ex_records|]. split; [exact ex_frames|].
  vm_compute. reflexivity.
Qed.

(** * C07  termination *)
(** false: a recording with one damaged record never finishes loading *)
Theorem C07_terminates_refuted : exists file, bytes file /\ hangs (Some file) new_loader.
Proof.
  exists (registered_header ++ [] ++ ex_damaged ++ []). split; [exact ex_hanging_bytes|exact ex_hanging].
Qed.
Print Assumptions C07_terminates_refuted.

(** the whole class: any burst of at most 32 bits in any record (outside its start mark and
    length field), whatever precedes and follows it, makes LoadFile run for ever *)
Theorem C07_every_damaged_record_hangs : forall cfg hdr ms olds fs dc m old f f' post,
  cfg <> [] -> Forall wf_config cfg -> NoDup (map dc_id cfg) -> write_header cfg = Some hdr ->
  Forall (fun m => exists dc, In dc cfg /\ record_of dc m) ms -> frames ms olds = Some fs ->
  In dc cfg -> record_of dc m -> record_bytes m old = Some f ->
  length f' = length f -> bytes f' ->
  sub f' 0 4 = sub f 0 4 -> sub f' 16 4 = sub f 16 4 ->
  burst32 (sub f 0 (length f - 4)) (sub f' 0 (length f - 4)) ->
  hangs (Some (hdr ++ fs ++ f' ++ post)) new_loader.
Proof. exact corrupted_hangs. Qed.
Print Assumptions C07_every_damaged_record_hangs.

(** what does hold: without a frame that fails its checksum, LoadFile ends (below 4 GiB) *)
Theorem C07_terminates_partial : forall buf st0, bytes buf -> N.of_nat (length buf) < 2^32 - 4 ->
  (forall off, ~ failing_frame buf off) -> exists fuel r, load_file fuel (Some buf) st0 = Some r.
Proof. exact load_terminates. Qed.
Print Assumptions C07_terminates_partial.
Example C07_partial_nonvacuous : bytes [1; 2; 3; 0x55; 0xAA; 0x55; 0xAA] /\
  forall off, ~ failing_frame [1; 2; 3; 0x55; 0xAA; 0x55; 0xAA] off.
Proof. split; [repeat constructor|]. intros off [H _]. cbn in H. lia. Qed.

(** * C08  memory safety of the loader *)
(** false: loading a recording that holds nothing but its header reads past the buffer *)
Theorem C08_memory_safe_refuted : reads_outside (Some registered_header) new_loader.
Proof.
  exact (header_only_oob registered registered_header new_loader registered_nonempty registered_wf registered_written).
Qed.
Print Assumptions C08_memory_safe_refuted.
Theorem C08_every_header_only_file_reads_outside : forall cfg hdr st0,
  cfg <> [] -> Forall wf_config cfg -> write_header cfg = Some hdr -> reads_outside (Some hdr) st0.
Proof. exact header_only_oob. Qed.
Print Assumptions C08_every_header_only_file_reads_outside.
(** what does hold: complete recordings are loaded without an outside read (C06 gives a
    terminating run with result, and [load_file] is deterministic) *)
Theorem C08_safe_on_complete_recordings_partial : forall cfg hdr ms olds fs,
  cfg <> [] -> Forall wf_config cfg -> NoDup (map dc_id cfg) -> write_header cfg = Some hdr ->
  ms <> [] -> Forall (fun m => exists dc, In dc cfg /\ record_of dc m) ms ->
  frames ms olds = Some fs -> ~ reads_outside (Some (hdr ++ fs)) new_loader.
Proof.
  intros cfg hdr ms olds fs H1 H2 H3 H4 H5 H6 H7 [k Hk].
  destruct (C06_file_round_trip cfg hdr ms olds fs H1 H2 H3 H4 H5 H6 H7) as (st & [k' Hk'] & _).
  exact (load_file_det _ _ _ _ _ Hk Hk').
Qed.
Print Assumptions C08_safe_on_complete_recordings_partial.

(** * C09  provenance *)
Theorem C09_only_intact_frames_delivered : forall buf st,
  bytes buf -> N.of_nat (length buf) < 2^32 - 4 ->
  returns (Some buf) new_loader st -> exists l, provenance buf l st \/ l_data st = [].
Proof. exact load_provenance. Qed.
Print Assumptions C09_only_intact_frames_delivered.

Theorem C09_corrupted_range_not_intact : forall buf buf' off len, bytes buf -> bytes buf' ->
  intact_frame buf off len -> burst32 (sub buf off (len - 4)) (sub buf' off (len - 4)) ->
  ~ intact_frame buf' off len.
Proof. exact corrupted_not_intact. Qed.
Print Assumptions C09_corrupted_range_not_intact.

(** every frame the recorder writes is intact, so the two theorems above apply to it *)
Theorem C09_written_frames_are_intact : forall m old pre post f,
  m_id m < 2^32 -> m_timestamp m < 2^64 ->
  28 + N.of_nat (length (payload_bytes m)) < 2^32 -> record_bytes m old = Some f ->
  intact_frame (pre ++ f ++ post) (length pre) (length f).
Proof. exact written_intact. Qed.
Print Assumptions C09_written_frames_are_intact.

(** * C10  columns aligned *)
Theorem C10_columns_aligned : forall buf st id d,
  bytes buf -> N.of_nat (length buf) < 2^32 - 4 -> returns (Some buf) new_loader st ->
  find id (l_data st) = Some d -> Forall (fun col => length col = length (d_time d)) (d_cols d).
Proof.
  intros buf st id d Hb Hl Hr Hd. destruct (load_provenance buf st Hb Hl Hr) as [l [P|E]].
  - destruct P as [_ [_ P]]. specialize (P id). rewrite Hd in P. destruct P as (c & _ & S).
    destruct S as (_ & _ & S & _). exact S.
  - rewrite E in Hd. discriminate.
Qed.
Print Assumptions C10_columns_aligned.
Example C10_nonvacuous : exists st d,
  returns (Some (registered_header ++ ex_file_frames)) new_loader st /\
  find (dc_id cfg_gnss) (l_data st) = Some d /\ length (d_time d) = 1%nat /\ length (d_cols d) = 8%nat.
Proof.
  destruct (C06_file_round_trip registered registered_header [ex_ahrs; ex_gnss] [0; 7] ex_file_frames
    registered_nonempty registered_wf registered_nodup registered_written ltac:(discriminate) ex_records ex_frames)
    as (st & R & H & _).
  exists st, (expected cfg_gnss [ex_gnss]). split; [exact R|]. split; [|split; reflexivity].
  rewrite (H cfg_gnss in_registered_gnss). reflexivity.
Qed.

(** * C11  reason of a header failure *)
(** the error code never tells: whatever file is loaded the code is OK, NO_HEADER or NOT_MATCH *)
Theorem C11_error_code_refuted : forall file st0 st, returns file st0 st ->
  l_err st <> E_CHECKFAILED /\ l_err st <> E_ENDMARK.
Proof.
  intros file st0 st H. destruct (load_err_codes file st0 st H) as [E | [E | E]]; rewrite E; split; discriminate.
Qed.
Print Assumptions C11_error_code_refuted.
(** ... although the check does fail on real files: *)
Theorem C11_checksum_failure_reported_as_no_header : forall buf st0 c,
  (8 <= length buf)%nat -> has_start_mark buf ->
  4 <= header_len buf -> header_len buf < 2^32 -> header_len buf - 4 <= N.of_nat (length buf) ->
  crc32_table (sub buf 0 (N.to_nat (header_len buf - 4))) = Some c -> c <> 0 ->
  exists st, returns (Some buf) st0 st /\ l_err st = E_NO_HEADER /\ l_strs st = [S_header_damaged] /\
    l_data st = l_data st0.
Proof. exact header_crc_fails. Qed.
Print Assumptions C11_checksum_failure_reported_as_no_header.
Theorem C11_no_start_mark : forall buf st0, (4 <= length buf)%nat -> ~ has_start_mark buf ->
  exists st, returns (Some buf) st0 st /\ l_err st = E_NO_HEADER /\ l_strs st = [] /\ l_data st = l_data st0.
Proof. exact no_start_mark. Qed.
Print Assumptions C11_no_start_mark.
Example C11_nonvacuous :
  let buf := le32 RECORDER_HEADER_START_MARK ++ [16; 0; 0; 0] ++ repeat 7 8 in
  (8 <= length buf)%nat /\ has_start_mark buf /\ header_len buf = 16 /\
  exists c, crc32_table (sub buf 0 (N.to_nat (header_len buf - 4))) = Some c /\ c <> 0.
Proof.
  cbv zeta. split; [cbn; lia|]. split; [vm_compute; reflexivity|]. split; [vm_compute; reflexivity|].
  eexists. split; [vm_compute; reflexivity|discriminate].
Qed.

(** * C49  interrupted recordings *)
(** false: the property "a recording cut short at any byte loads its complete records". A cut inside
    a record (before its last four bytes) is an outside read. *)
Theorem C49_truncated_recording_refuted : forall cfg hdr ms olds fs dc m old f k,
  cfg <> [] -> Forall wf_config cfg -> NoDup (map dc_id cfg) -> write_header cfg = Some hdr ->
  Forall (fun m => exists dc, In dc cfg /\ record_of dc m) ms -> frames ms olds = Some fs ->
  ms <> [] ->
  In dc cfg -> record_of dc m -> record_bytes m old = Some f ->
  (0 < k < length f - 4)%nat ->
  reads_outside (Some (hdr ++ fs ++ firstn k f)) new_loader.
Proof. exact truncated_oob. Qed.
Print Assumptions C49_truncated_recording_refuted.
Example C49_nonvacuous : exists f, record_bytes ex_ahrs 0 = Some f /\ (0 < 17 < length f - 4)%nat.
Proof. exists ex_frame. split; [exact ex_frame_written|]. cbn. lia. Qed.

(** * C50  a loader that is used twice *)
(** false: the property "the loader shows the contents of the last file". The second recording
    is appended to what the first left behind. *)
Theorem C50_reload_accumulates_refuted : forall cfg hdr ms1 ms2 olds1 olds2 fs1 fs2,
  cfg <> [] -> Forall wf_config cfg -> NoDup (map dc_id cfg) -> write_header cfg = Some hdr ->
  ms1 <> [] -> Forall (fun m => exists dc, In dc cfg /\ record_of dc m) ms1 -> frames ms1 olds1 = Some fs1 ->
  ms2 <> [] -> Forall (fun m => exists dc, In dc cfg /\ record_of dc m) ms2 -> frames ms2 olds2 = Some fs2 ->
  exists st1 st2, returns (Some (hdr ++ fs1)) new_loader st1 /\ returns (Some (hdr ++ fs2)) st1 st2 /\
    holds cfg (ms1 ++ ms2) st2 /\ l_err st2 = E_OK.
Proof. exact second_load. Qed.
Print Assumptions C50_reload_accumulates_refuted.
(** a file that cannot be opened leaves the old data and the code OK *)
Theorem C50_missing_file_reports_ok_refuted : forall st0, exists st, returns None st0 st /\ l_err st = E_OK /\
  l_strs st = [S_nofile] /\ l_data st = l_data st0.
Proof. exact missing_file. Qed.
Print Assumptions C50_missing_file_reports_ok_refuted.

(** * C51  integer items *)
Theorem C51_integers_up_to_2_24_exact : forall t z, fits t z -> (Z.abs z <= 2^24)%Z ->
  shown (t, encode t z) = VInt z.
Proof. exact integers_exact. Qed.
Print Assumptions C51_integers_up_to_2_24_exact.
(** false beyond: the GNSS counter 16777217 is shown as 16777216 *)
Theorem C51_integers_exact_refuted : exists t z, fits t z /\ shown (t, encode t z) <> VInt z.
Proof. exists Tu32, 16777217%Z. split; [vm_compute; split; [discriminate|reflexivity]|vm_compute; discriminate]. Qed.
Print Assumptions C51_integers_exact_refuted.
Example C51_nonvacuous : fits Ti16 (-300)%Z /\ encode Ti16 (-300) = 0xFED4.
Proof. vm_compute. split; [split; [discriminate|reflexivity]|reflexivity]. Qed.
