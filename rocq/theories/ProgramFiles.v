(** From the files to the events: every format that can be read. *)
From Coq Require Import QArith Qreals Reals ZArith List Bool Sorted Lia.
From Verif Require Import MergeModel MergeSpec OutageModel OutageSpec OutageProofs SmoothModel FusionBase ApiModel ApiSpec PostModel PostSpec
  ReaderModel ReaderSpec ReaderProofs ProgramModel ProgramSpec ProgramProofs.
From Verif Require RealMath ConfigModel MergeProofs.
Import ListNotations.
Local Open Scope nat_scope.

(** the GNSS file holds the fixes [gs], one per line, no final line end *)
Definition gnss_file_of (c : ConfigModel.config) (gs : list gnss_data) (lines : list (list token)) : Prop :=
  ConfigModel.g_enable c = true ->
  (forall g, In g gs -> usable_fix g /\ imaginable (g_time g)) /\
  ((ConfigModel.g_format c = 0%Z /\ (forall g, In g gs -> g_mode g = SPP) /\ lines = map pos7_line gs) \/
   (ConfigModel.g_format c = 4%Z /\ exists w ns, lines = map (rtklib_line w ns) gs)).
(** the same time and place; modes other than 1, 4 and 5 become the mode 6 (invalid) *)
Definition same_place (g o : gnss_data) : Prop :=
  g_time o = g_time g /\ g_lat o = g_lat g /\ g_lon o = g_lon g /\ g_height o = g_height g /\
  g_mode o = (if (Z.eqb (g_mode g) 4 || Z.eqb (g_mode g) 5 || Z.eqb (g_mode g) 1)%bool then g_mode g else INVALID).
(** the fixes hidden by the plan of outages *)
Definition hides (c : ConfigModel.config) (hid : Q -> bool) : Prop :=
  (valid_plan (ConfigModel.u_start c) (ConfigModel.u_stop c) (ConfigModel.u_len c) (ConfigModel.u_step c) -> 0 < ConfigModel.u_step c)%Q /\
  forall t, hid t = true <-> ConfigModel.u_enable c = true /\
    valid_plan (ConfigModel.u_start c) (ConfigModel.u_stop c) (ConfigModel.u_len c) (ConfigModel.u_step c) /\
    in_window (ConfigModel.u_start c) (ConfigModel.u_stop c) (ConfigModel.u_len c) (ConfigModel.u_step c) t.
(** [t]: every event is followed by a line, the answer of the library after the calls of the events so far *)
Definition worked_off (c : ConfigModel.config) (para : ConfigModel.imu_para) (mem : device) (j : junk) (hid : Q -> bool) (es : list event) (t : post) : Prop :=
  length (t_lines t) = length es /\
  exists o p d0, asked_options c para o /\ asked_state c p /\ api_init mem j (Some o) (Some p) = Some (d0, RGIOE_OK) /\
    forall k, k < length es -> exists d l r,
      api_run d0 (calls_for (Z.eqb (ConfigModel.i_frame c) 1) hid (firstn (S k) es)) = Some (d, l) /\ nth_error (t_lines t) k = Some r /\
      (d_status d = RGIOE_STATUS_NAVIGATION -> forall b, api_do d (AResult b) = Some (d, RPva r)).

Lemma Q2R_1 q : Q2R q = (Q2R q * 1)%R. Proof. ring. Qed.
Lemma Q2R_0 : 0%R = (Q2R 0 * 1)%R. Proof. unfold Q2R. cbn. ring. Qed.
Lemma options_asked c para : asked_options c para (options_of (ConfigModel.get_option c para)).
Proof.
  destruct c as [? ? ? ? ? ? ? ? ? [[a1 a2] a3] ? ? ? ? ? ? ? ? ? ? ? ? [n1 n2] [[b1 b2] b3] [[d1 d2] d3] ? ? ? ? ? ? ? ? ? ? ? ? ? ? ? ? ? ? ? ? ? ? ? ? ? ? [[p1 p2] p3] [[q1 q2] q3] ? ? ?].
  unfold asked_options, triple, three. cbn. unfold vec_of. cbn. repeat split; f_equal; try (unfold Q2R; cbn; ring).
Qed.
Lemma state_asked c : asked_state c (init_pva_of c).
Proof.
  unfold asked_state, init_pva_of, vec_of, triple. cbn [p_week p_gpst p_lat p_lon p_height p_pos_std p_vn p_vn_std p_atti p_atti_std p_sensors p_gnss_mode p_gb p_ab p_gs p_as p_kd].
  destruct (ConfigModel.a_vn c) as [[v1 v2] v3]. destruct (ConfigModel.a_atti c) as [[w1 w2] w3]. cbn [ConfigModel.x3 ConfigModel.y3 ConfigModel.z3].
  assert (E : V3 0 0 0 = V3 (Q2R 0 * 1) (Q2R 0 * 1) (Q2R 0 * 1)) by (rewrite <- Q2R_0; reflexivity).
  repeat split; try (f_equal; exact E); try exact E; try (rewrite <- !Q2R_1; reflexivity).
  destruct (ConfigModel.a_week c); cbn; lia.
Qed.
Lemma gen_more : forall n m i stop step l, gen_starts n i stop step = Some l -> n <= m -> gen_starts m i stop step = Some l.
Proof.
  induction n as [|n IH]; intros m i stop step l E L; [discriminate|]. destruct m as [|m]; [lia|]. cbn [gen_starts] in *.
  destruct (Qltb i stop); [|exact E]. destruct (gen_starts n (i + step) stop step) as [x|] eqn:G; [|discriminate].
  rewrite (IH m _ _ _ _ G) by lia. exact E.
Qed.
Lemma outage_more n m a b l s o : new_outage n a b l s = Some o -> n <= m -> new_outage m a b l s = Some o.
Proof.
  unfold new_outage. intros E L. destruct (_ || _)%bool; [exact E|]. destruct (gen_starts n a b s) as [x|] eqn:G; [|discriminate].
  now rewrite (gen_more _ _ _ _ _ _ G L).
Qed.
Lemma hides_outage c hid : hides c hid -> exists N o, (forall n, N <= n ->
    new_outage n (ConfigModel.u_start c) (ConfigModel.u_stop c) (ConfigModel.u_len c) (ConfigModel.u_step c) = Some o) /\
  forall t, hid t = (ConfigModel.u_enable c && is_outage o t)%bool.
Proof.
  intros (P & H).
  assert (D : valid_plan (ConfigModel.u_start c) (ConfigModel.u_stop c) (ConfigModel.u_len c) (ConfigModel.u_step c) \/
    ~ valid_plan (ConfigModel.u_start c) (ConfigModel.u_stop c) (ConfigModel.u_len c) (ConfigModel.u_step c)).
  { rewrite <- plan_dec. destruct (_ || _)%bool; [right; discriminate|now left]. }
  destruct D as [D|D].
  - destruct (outage_windows _ _ _ _ D (P D)) as (N & o & E & W). exists N, o. split; [intros n L; exact (outage_more _ _ _ _ _ _ _ E L)|].
    intros t. apply Bool.eq_iff_eq_true. rewrite H, andb_true_iff, W. tauto.
  - destruct (outage_disabled 0 _ _ _ _ D) as (o & E & W). exists 0, o. split; [intros n L; exact (outage_more _ _ _ _ _ _ _ E L)|].
    intros t. apply Bool.eq_iff_eq_true. rewrite H, andb_true_iff, W. split; [tauto|intros (_ & ?); discriminate].
Qed.
Lemma calls_ext rfu h1 h2 es : (forall t, h1 t = h2 t) -> calls_for rfu h1 es = calls_for rfu h2 es.
Proof. intros E. unfold calls_for. induction es as [|e es IH]; cbn [flat_map]; [reflexivity|]. rewrite IH. f_equal. destruct e; cbn; [reflexivity|]. now rewrite E. Qed.

Lemma gnss_file_reads c gs lines : gnss_file_of c gs lines ->
  (if ConfigModel.g_enable c then read_gnss (gnss_format_of (ConfigModel.g_format c)) lines else Ok []) = Ok (if ConfigModel.g_enable c then gs else []) /\
  Forall (fun g => imaginable (g_time g)) (if ConfigModel.g_enable c then gs else []).
Proof.
  intros H. destruct (ConfigModel.g_enable c) eqn:E; [|split; [reflexivity|constructor]].
  destruct (H E) as (U & F). split; [|apply Forall_forall; intros g G; apply (U g G)].
  destruct all_fixes as (A & B & _). destruct F as [(F & M & ->)|(F & w & ns & ->)]; rewrite F.
  - apply A. intros g G. split; [apply (U g G)|apply (M g G)].
  - apply B. intros g G. apply (U g G).
Qed.

Section Files.
Context {B : Type} (decode : list B -> Q).
Lemma from_readers c para (x : input_files B) u mem j p0 hid ds rs gs :
  hides c hid ->
  (if ConfigModel.g_enable c then read_gnss (gnss_format_of (ConfigModel.g_format c)) (gf_lines x) else Ok []) = Ok (if ConfigModel.g_enable c then gs else []) ->
  Forall (fun g => imaginable (g_time g)) (if ConfigModel.g_enable c then gs else []) ->
  read_imu_file decode (ConfigModel.i_format c) (frame_of (ConfigModel.i_frame c)) x = Ok ds ->
  Forall2 (delivers u (Z.eqb (ConfigModel.i_frame c) 1) hid) ds rs ->
  (Z.of_nat (length rs + length gs) <= int_max)%Z ->
  exists N, forall n, N <= n -> exists t, program decode c para x n u mem j p0 = Some (Done (Some t)) /\
    worked_off c para mem j hid (behind (ConfigModel.start_time c) (events (ConfigModel.g_enable c) rs gs)) t.
Proof.
  intros H RG IG R D L. destruct (hides_outage _ _ H) as (N & o & O & HO).
  set (fixes := if ConfigModel.g_enable c then gs else []) in *.
  assert (LF : length fixes <= length gs) by (unfold fixes; destruct (ConfigModel.g_enable c); cbn; lia).
  exists (N + S (length rs + length gs)). intros n Ln.
  destruct (whole_program decode c para x n u mem j p0 o ds rs fixes) as (d0 & t & I & P & LL & K); auto; try lia.
  - apply O. lia.
  - exists t. split; [exact P|].
    assert (EV : events (ConfigModel.g_enable c) rs fixes = events (ConfigModel.g_enable c) rs gs) by (unfold fixes, events; destruct (ConfigModel.g_enable c); reflexivity).
    rewrite EV in LL, K. split; [exact LL|]. do 2 eexists. exists d0. split; [apply options_asked|]. split; [apply state_asked|]. split; [exact I|]. intros k Hk. destruct (K k Hk) as (d & l & r & A1 & A2 & A3).
    exists d, l, r. split; [|auto]. rewrite (calls_ext _ _ _ _ HO). exact A1.
Qed.
Lemma from_reader c para (x : input_files B) u mem j p0 hid ds rs gs :
  hides c hid -> gnss_file_of c gs (gf_lines x) ->
  read_imu_file decode (ConfigModel.i_format c) (frame_of (ConfigModel.i_frame c)) x = Ok ds ->
  Forall2 (delivers u (Z.eqb (ConfigModel.i_frame c) 1) hid) ds rs ->
  (Z.of_nat (length rs + length gs) <= int_max)%Z ->
  exists N, forall n, N <= n -> exists t, program decode c para x n u mem j p0 = Some (Done (Some t)) /\
    worked_off c para mem j hid (behind (ConfigModel.start_time c) (events (ConfigModel.g_enable c) rs gs)) t.
Proof. intros H G. destruct (gnss_file_reads _ _ _ G) as (RG & IG). now apply from_readers. Qed.

(** text *)
Lemma frame_is c : frame_of (ConfigModel.i_frame c) = if Z.eqb (ConfigModel.i_frame c) 1 then IMU_FRAME_RFU else IMU_FRAME_FRD.
Proof. reflexivity. Qed.
Lemma seven_long rs : Forall (fun r : list Q => length r = 7) rs -> length (nums (concat rs)) = 7 * length rs.
Proof. unfold nums. rewrite map_length. induction 1 as [|r rs E F IH]; cbn [concat length]; [reflexivity|]. rewrite app_length, E, IH. lia. Qed.
Lemma text_file c para (x : input_files B) u mem j p0 hid rs gs :
  hides c hid -> gnss_file_of c gs (gf_lines x) -> ConfigModel.i_format c = 0%Z ->
  rs <> [] -> Forall (fun r => length r = 7) rs -> if_tokens x = nums (concat rs) ->
  (Z.of_nat (S (length rs + length gs)) <= int_max)%Z ->
  exists N, forall n, N <= n -> exists t, program decode c para x n u mem j p0 = Some (Done (Some t)) /\
    worked_off c para mem j hid (behind (ConfigModel.start_time c)
      (events (ConfigModel.g_enable c) (rs ++ if if_blank_end x then [[u; 0; 0; 0; 0; 0; 0]%Q] else []) gs)) t.
Proof.
  intros H G F NE S7 T L. eapply from_reader with
    (ds := map (turn (frame_of (ConfigModel.i_frame c))) (map (map Known) rs ++ if if_blank_end x then [imu_init] else [])); eauto.
  - unfold read_imu_file. rewrite F, T. cbn [Z.eqb].
    rewrite (imu_txt_ok rs _ (if_blank_end x) S7 NE); [reflexivity|]. rewrite (seven_long _ S7). destruct rs; [congruence|cbn [length]; lia].
  - rewrite map_app, frame_is. apply Forall2_app.
    + apply (delivers_all u (Z.eqb (ConfigModel.i_frame c) 1) hid). exact S7.
    + destruct (if_blank_end x); [|constructor]. constructor; [|constructor]. apply delivers_init.
  - rewrite app_length. destruct (if_blank_end x); cbn [length]; lia.
Qed.

(** text with fixes from a file of the GGA columns *)
Lemma gga_file c para (x : input_files B) u mem j p0 hid rs gs w ns s0 s1 :
  hides c hid -> ConfigModel.g_enable c = true -> ConfigModel.g_format c = 6%Z -> gf_lines x = map (gga_line w ns s0 s1) gs ->
  (forall g, In g gs -> 0 < g_time g /\ imaginable (g_time g))%Q -> ConfigModel.i_format c = 0%Z ->
  rs <> [] -> Forall (fun r => length r = 7) rs -> if_tokens x = nums (concat rs) -> if_blank_end x = false ->
  (Z.of_nat (S (length rs + length gs)) <= int_max)%Z ->
  exists out, Forall2 same_place gs out /\
  exists N, forall n, N <= n -> exists t, program decode c para x n u mem j p0 = Some (Done (Some t)) /\
    worked_off c para mem j hid (behind (ConfigModel.start_time c) (events true rs out)) t.
Proof.
  intros H En F6 GL GT F NE S7 T BE L. destruct all_fixes as (_ & _ & GA). destruct (GA gs w ns s0 s1 (fun g G => proj1 (GT g G))) as (out & E & FO).
  assert (FO2 : Forall2 same_place gs out).
  { clear - FO. induction FO as [|g o gs out X FO IH]; constructor; auto. }
  assert (LO : length out = length gs) by (clear - FO; induction FO; cbn; congruence).
  exists out. split; [exact FO2|].
  assert (P := from_readers c para x u mem j p0 hid (map (turn (frame_of (ConfigModel.i_frame c))) (map (map Known) rs)) rs out H).
  rewrite En, F6, GL in P. apply P.
  - exact E.
  - clear - FO2 GT. induction FO2 as [|g o gs out X FO IH]; constructor.
    + destruct X as (-> & _). apply (GT g). now left.
    + apply IH. intros g' G. apply GT. now right.
  - unfold read_imu_file. rewrite F, T, BE. cbn [Z.eqb].
    rewrite (imu_txt_ok rs _ false S7 NE); [rewrite app_nil_r; reflexivity|]. rewrite (seven_long _ S7). destruct rs; [congruence|cbn [length]; lia].
  - rewrite frame_is. apply (delivers_all u (Z.eqb (ConfigModel.i_frame c) 1) hid). exact S7.
  - lia.
Qed.
(** an empty file of the imd format, and formats that do not exist: one sample that is in no file *)
Lemma no_file c para (x : input_files B) u mem j p0 hid gs :
  hides c hid -> gnss_file_of c gs (gf_lines x) ->
  ConfigModel.i_format c <> 0%Z /\ ConfigModel.i_format c <> 2%Z /\ (ConfigModel.i_format c = 1%Z -> if_bytes x = []) ->
  (Z.of_nat (1 + length gs) <= int_max)%Z ->
  exists N, forall n, N <= n -> exists t, program decode c para x n u mem j p0 = Some (Done (Some t)) /\
    worked_off c para mem j hid (behind (ConfigModel.start_time c) (events (ConfigModel.g_enable c) [[u; 0; 0; 0; 0; 0; 0]%Q] gs)) t.
Proof.
  intros H G (F0 & F2 & F1) L.
  assert (R : exists d, read_imu_file decode (ConfigModel.i_format c) (frame_of (ConfigModel.i_frame c)) x = Ok [d] /\
    delivers u (Z.eqb (ConfigModel.i_frame c) 1) hid d [u; 0; 0; 0; 0; 0; 0]%Q).
  { unfold read_imu_file. rewrite (proj2 (Z.eqb_neq _ _) F0), (proj2 (Z.eqb_neq _ _) F2). destruct (Z.eqb_spec (ConfigModel.i_format c) 1) as [E|E].
    - rewrite (F1 E). eexists. split; [reflexivity|]. rewrite frame_is. apply (delivers_init u (Z.eqb (ConfigModel.i_frame c) 1) hid).
    - eexists. split; [reflexivity|]. unfold fresh_imu, delivers. cbn [at_ nth num repeat]. split; [reflexivity|].
      cbn. unfold rgioe_imu, axes. cbn. destruct (Z.eqb (ConfigModel.i_frame c) 1); reflexivity. }
  destruct R as (d & R & D). apply from_reader with (ds := [d]); auto.
Qed.

(** the binary format of 56 byte records *)
Definition numbers (r : list B) : list Q := map (fun k => decode (double_of r k)) (seq 0 7).
Lemma delivers_any u rfu hid a b c d e f g : exists r, length r = 7 /\ delivers u rfu hid [a; b; c; d; e; f; g] r.
Proof.
  destruct rfu.
  - exists [num u a; num u c; num u b; - num u d; num u f; num u e; - num u g]%Q. split; [reflexivity|]. split; [reflexivity|].
    cbn. unfold rgioe_imu, axes. cbn. repeat rewrite Q2R_opp. repeat rewrite Ropp_involutive. reflexivity.
  - exists [num u a; num u b; num u c; num u d; num u e; num u f; num u g]%Q. split; [reflexivity|split; reflexivity].
Qed.
Lemma delivers_record u hid fz r : delivers u (Z.eqb fz 1) hid (of_imu_data (to_frd Qopp (frame_of fz) (meaning decode r))) (numbers r).
Proof. unfold frame_of. destruct (Z.eqb fz 1); split; reflexivity. Qed.
Lemma binary_file c para (x : input_files B) u mem j p0 hid gs :
  hides c hid -> gnss_file_of c gs (gf_lines x) -> ConfigModel.i_format c = 2%Z ->
  (Z.of_nat (length (if_bytes x) + length gs) < int_max)%Z ->
  exists recs tail extra, if_bytes x = concat recs ++ tail /\ Forall whu_record recs /\ length tail < 56 /\ length extra = 7 /\
  exists N, forall n, N <= n -> exists t, program decode c para x n u mem j p0 = Some (Done (Some t)) /\
    worked_off c para mem j hid (behind (ConfigModel.start_time c) (events (ConfigModel.g_enable c) (map numbers recs ++ [extra]) gs)) t.
Proof.
  intros H G F L. destruct (whu_always decode Qopp (frame_of (ConfigModel.i_frame c)) (if_bytes x)) as (recs & tail & l & E & W & T & R & LL & FS).
  assert (SP : exists z, l = firstn (length recs) l ++ [z]).
  { assert (length (skipn (length recs) l) = 1) by (rewrite skipn_length; lia). destruct (skipn (length recs) l) as [|z [|? ?]] eqn:K; try discriminate.
    exists z. rewrite <- K. now rewrite firstn_skipn. }
  destruct SP as (z & Z0). destruct z as [zt [[z1 z2] z3] [[z4 z5] z6]].
  destruct (delivers_any u (Z.eqb (ConfigModel.i_frame c) 1) hid zt z1 z2 z3 z4 z5 z6) as (extra & LE & DE).
  exists recs, tail, extra. split; [exact E|]. split; [exact W|]. split; [exact T|]. split; [exact LE|].
  eapply from_reader with (ds := map of_imu_data l); eauto.
  - unfold read_imu_file. rewrite F. cbn [Z.eqb Pos.eqb]. change (2 + length (if_bytes x)) with (S (S (length (if_bytes x)))). rewrite R. reflexivity.
  - rewrite Z0, map_app. apply Forall2_app; [|constructor; [exact DE|constructor]]. rewrite FS. clear.
    induction recs; cbn [map]; constructor; auto. apply delivers_record.
  - rewrite app_length, map_length. cbn [length]. assert (length recs <= length (if_bytes x)); [|lia].
    rewrite E, app_length. clear - W. induction W as [|r recs Hr W IH]; cbn [concat length] in *; [lia|]. unfold whu_record in Hr. rewrite app_length, Hr. lia.
Qed.
End Files.
