(** The post-processing program as a whole, from the configuration and the contents of the files to the results: C115 to C119. Model:
    ProgramModel (PostDataFusion.cpp on top of the readers, the data manager, the options, the outages and the library). Specification:
    ProgramSpec, and [gnss_file_of], [hides], [worked_off] of ProgramFiles. [u] is what an unwritten number in memory happens to be. *)
From Coq Require Import QArith Qreals Reals ZArith String List Bool Sorted Lia Lra.
From Verif Require Import MergeModel MergeSpec OutageModel OutageSpec SmoothModel FusionBase ApiModel ApiSpec PostModel PostSpec
  ReaderModel ReaderSpec ProgramModel ProgramSpec ProgramProofs ProgramFiles ProgramOrder.
From Verif Require RealMath ConfigModel ConfigSpec MergeProofs ApiProofs PostMain PropReader.
Import ListNotations.
Local Open Scope list_scope.
Local Open Scope nat_scope.

(** ** C115 *)
(** text files without a final line end: a result for every event of the two files, in the order of time *)
Theorem C115_text_files_partial : forall (B : Type) (decode : list B -> Q) c para (x : input_files B) u mem j p0 hid rs gs,
  hides c hid -> gnss_file_of c gs (gf_lines x) -> ConfigModel.i_format c = 0%Z ->
  rs <> [] -> Forall (fun r => length r = 7) rs -> if_tokens x = nums (concat rs) -> if_blank_end x = false ->
  (Z.of_nat (S (length rs + length gs)) <= int_max)%Z ->
  exists N, forall n, N <= n -> exists t, program decode c para x n u mem j p0 = Some (Done (Some t)) /\
    worked_off c para mem j hid (behind (ConfigModel.start_time c) (events (ConfigModel.g_enable c) rs gs)) t.
Proof.
  intros B decode c para x u mem j p0 hid rs gs H G F NE S7 T BE L. assert (P := text_file decode c para x u mem j p0 hid rs gs H G F NE S7 T L).
  rewrite BE, app_nil_r in P. exact P.
Qed.
(** the same for binary files of 56 byte records, with one record too many at the end *)
Theorem C115_binary_files_partial : forall (B : Type) (decode : list B -> Q) c para (x : input_files B) u mem j p0 hid gs,
  hides c hid -> gnss_file_of c gs (gf_lines x) -> ConfigModel.i_format c = 2%Z ->
  (Z.of_nat (length (if_bytes x) + length gs) < int_max)%Z ->
  exists recs tail extra, if_bytes x = concat recs ++ tail /\ Forall whu_record recs /\ length tail < 56 /\ length extra = 7 /\
  exists N, forall n, N <= n -> exists t, program decode c para x n u mem j p0 = Some (Done (Some t)) /\
    worked_off c para mem j hid (behind (ConfigModel.start_time c)
      (events (ConfigModel.g_enable c) (map (fun r => map (fun k => decode (double_of r k)) [0; 1; 2; 3; 4; 5; 6]) recs ++ [extra]) gs)) t.
Proof. exact @binary_file. Qed.
(** the events are worked off in the order of time, and they are unbroken pieces of the two files *)
Theorem C115_order_of_time : forall g start rs gs, in_order rs -> (g = true -> fixes_in_order gs) ->
  StronglySorted (fun a b => event_time a <= event_time b)%Q (behind start (events g rs gs)).
Proof. exact order. Qed.
Theorem C115_nothing_in_between_left_out : forall g start rs gs,
  piece (samples_in (behind start (events g rs gs))) rs /\ piece (fixes_in (behind start (events g rs gs))) gs.
Proof. exact pieces. Qed.
(** from the first sample on every line is the library's answer when the unit starts from a given state *)
Theorem C115_given_state : forall c para mem j hid es t k, worked_off c para mem j hid es t -> ConfigModel.a_mode c = ALIGN_USE_GIVEN ->
  k < length es -> samples_in (firstn (S k) es) <> [] ->
  exists o p d0 d l r, asked_options c para o /\ asked_state c p /\ api_init mem j (Some o) (Some p) = Some (d0, RGIOE_OK) /\
    api_run d0 (calls_for (Z.eqb (ConfigModel.i_frame c) 1) hid (firstn (S k) es)) = Some (d, l) /\
    d_status d = RGIOE_STATUS_NAVIGATION /\ nth_error (t_lines t) k = Some r /\ forall b, api_do d (AResult b) = Some (d, RPva r).
Proof.
  intros c para mem j hid es t k (_ & o & p & d0 & AO & AP & I & K) M Hk NS. destruct (K k Hk) as (d & l & r & A & N & V0).
  assert (Nav : d_status d = RGIOE_STATUS_NAVIGATION).
  { destruct (ApiProofs.init_ok _ _ _ _ _ I) as (S0 & O0 & _).
    eapply PostMain.given_navigation; [|exact A| |left; exact S0|rewrite O0; rewrite (proj1 (proj2 (proj1 (proj2 AO)))); exact M].
    - unfold calls_for. apply Forall_flat_map. apply Forall_forall. intros [s|g] _; cbn; [repeat constructor|].
      destruct (hid _); [constructor|]. destruct (g_std g) as [[? ?] ?]. repeat constructor.
    - revert NS. generalize (firstn (S k) es). intros es' NS E. apply NS. clear - E. induction es' as [|[s|g] es' IH]; [reflexivity|discriminate E|].
      cbn. apply IH. cbn in E. destruct (hid _); [exact E|]. destruct (g_std g) as [[? ?] ?]. exact E. }
  exists o, p, d0, d, l, r. auto 9.
Qed.
(** a final line end puts a sample into the run that is in neither file: its time is whatever was in memory *)
Theorem C115_final_line_end_refuted : forall (B : Type) (decode : list B -> Q) c para (x : input_files B) u mem j p0 hid rs,
  hides c hid -> ConfigModel.g_enable c = false -> ConfigModel.i_format c = 0%Z ->
  rs <> [] -> Forall (fun r => length r = 7) rs -> if_tokens x = nums (concat rs) -> if_blank_end x = true ->
  (Z.of_nat (S (length rs)) <= int_max)%Z -> Exists (fun r => ConfigModel.start_time c <= nth 0 r 0)%Q rs ->
  exists N, forall n, N <= n -> exists t es, program decode c para x n u mem j p0 = Some (Done (Some t)) /\
    worked_off c para mem j hid (es ++ [Sample [u; 0; 0; 0; 0; 0; 0]%Q]) t.
Proof.
  intros B decode c para x u mem j p0 hid rs H G F NE S7 T BE L X.
  destruct (text_file decode c para x u mem j p0 hid rs [] H) as (N & P); auto; [intros E; congruence|rewrite Nat.add_0_r; exact L|].
  exists N. intros n Ln. destruct (P n Ln) as (t & E & W). exists t. rewrite BE, G in W. unfold events in W. rewrite map_app in W. cbn [map] in W.
  assert (Z0 : exists es, behind (ConfigModel.start_time c) (map Sample rs ++ [Sample [u; 0; 0; 0; 0; 0; 0]%Q]) = es ++ [Sample [u; 0; 0; 0; 0; 0; 0]%Q]).
  { clear - X. induction rs as [|r rs IH]; [inversion X|]. cbn [map app behind event_time]. destruct (Qle_bool _ _) eqn:E; [eauto|].
    apply IH. inversion X; subst; [|assumption]. apply Qle_bool_iff in H0. congruence. }
  destruct Z0 as (es & Z0). exists es. split; [exact E|]. rewrite <- Z0. exact W.
Qed.
(** fixes of a file with the GGA columns (format 6): the same with fixes of the same times and places *)
Theorem C115_gga_files_partial : forall (B : Type) (decode : list B -> Q) c para (x : input_files B) u mem j p0 hid rs gs w ns s0 s1,
  hides c hid -> ConfigModel.g_enable c = true -> ConfigModel.g_format c = 6%Z -> gf_lines x = map (gga_line w ns s0 s1) gs ->
  (forall g, In g gs -> 0 < ReaderModel.g_time g /\ imaginable (ReaderModel.g_time g))%Q -> ConfigModel.i_format c = 0%Z ->
  rs <> [] -> Forall (fun r => length r = 7) rs -> if_tokens x = nums (concat rs) -> if_blank_end x = false ->
  (Z.of_nat (S (length rs + length gs)) <= int_max)%Z ->
  exists out, Forall2 same_place gs out /\
  exists N, forall n, N <= n -> exists t, program decode c para x n u mem j p0 = Some (Done (Some t)) /\
    worked_off c para mem j hid (behind (ConfigModel.start_time c) (events true rs out)) t.
Proof. exact @gga_file. Qed.
Print Assumptions C115_gga_files_partial.
(** an IMU format that does not exist is not rejected: the run is made with one sample that is in no file *)
Theorem C115_unknown_format_refuted : forall (B : Type) (decode : list B -> Q) c para (x : input_files B) u mem j p0 hid gs,
  hides c hid -> gnss_file_of c gs (gf_lines x) ->
  ConfigModel.i_format c <> 0%Z /\ ConfigModel.i_format c <> 2%Z /\ (ConfigModel.i_format c = 1%Z -> if_bytes x = []) ->
  (Z.of_nat (1 + length gs) <= int_max)%Z ->
  exists N, forall n, N <= n -> exists t, program decode c para x n u mem j p0 = Some (Done (Some t)) /\
    worked_off c para mem j hid (behind (ConfigModel.start_time c) (events (ConfigModel.g_enable c) [[u; 0; 0; 0; 0; 0; 0]%Q] gs)) t.
Proof. exact @no_file. Qed.
Print Assumptions C115_unknown_format_refuted.
Print Assumptions C115_text_files_partial.
Print Assumptions C115_binary_files_partial.
Print Assumptions C115_order_of_time.
Print Assumptions C115_nothing_in_between_left_out.
Print Assumptions C115_given_state.
Print Assumptions C115_final_line_end_refuted.
(** a case: five samples and three fixes from a given state, the second fix in an outage *)
Definition case_config (gnss : bool) (format : Z) : ConfigModel.config :=
  {| ConfigModel.start_time := 100; ConfigModel.stop_time := 102; ConfigModel.enable_rts := false;
     ConfigModel.g_enable := gnss; ConfigModel.g_path := EmptyString; ConfigModel.g_format := 0; ConfigModel.g_columns := 7; ConfigModel.g_index := [];
     ConfigModel.g_double := false; ConfigModel.g_arm := (1, 2, 3); ConfigModel.g_pitch := 0; ConfigModel.g_yaw := 0; ConfigModel.g_scale := 1;
     ConfigModel.i_path := EmptyString; ConfigModel.i_format := format; ConfigModel.i_frame := 1; ConfigModel.i_rate := 200; ConfigModel.i_para := EmptyString;
     ConfigModel.o_enable := false; ConfigModel.o_path := EmptyString; ConfigModel.o_std := 1; ConfigModel.o_nhc := false; ConfigModel.o_nhc_std := (1, 1);
     ConfigModel.o_angle := (0, 0, 90); ConfigModel.o_arm := (0, 0, 0); ConfigModel.o_scale := 1; ConfigModel.o_scale_std := 1;
     ConfigModel.z_zupt := false; ConfigModel.z_zupta := false; ConfigModel.z_zupt_std := 1; ConfigModel.z_zupta_std := 1;
     ConfigModel.z_window := 1; ConfigModel.z_wide := 1; ConfigModel.z_threshold := 1;
     ConfigModel.a_mode := ALIGN_USE_GIVEN; ConfigModel.a_threshold := 1 # 2; ConfigModel.a_week := 2000; ConfigModel.a_gpst := 100;
     ConfigModel.a_lat := 30; ConfigModel.a_lon := 114; ConfigModel.a_height := 20; ConfigModel.a_vn := (0, 0, 0); ConfigModel.a_atti := (0, 0, 0);
     ConfigModel.u_enable := true; ConfigModel.u_start := 103; ConfigModel.u_stop := 200; ConfigModel.u_step := 50; ConfigModel.u_len := 1;
     ConfigModel.w_path := EmptyString; ConfigModel.w_format := 0; ConfigModel.w_project := false; ConfigModel.w_pos := (0, 0, 0); ConfigModel.w_atti := (0, 0, 0);
     ConfigModel.p_enable := false; ConfigModel.p_path := EmptyString; ConfigModel.p_std := 1 |}%Q.
Definition case_line (t : Q) : list Q := [t; 1 # 1000; 0; 0; 0; 0; - (49 # 1000)]%Q.
Definition case_lines : list (list Q) := map case_line [100; 101; 102; 103; 105]%Q.
Definition case_fix (t : Q) : gnss_data := {| ReaderModel.g_time := t; g_lat := 30; g_lon := 114; g_height := 20; g_std := (1, 1, 2)%Q; g_mode := 1 |}.
Definition case_fixes : list gnss_data := map case_fix [101; 103; 104]%Q.
Definition case_files (blank : bool) : input_files nat := Files (nums (concat case_lines)) blank [] (map pos7_line case_fixes).
Definition case_hid (t : Q) : bool := is_outage {| o_starts := [103; 153]%Q; o_length := 1; o_enable := true |} t.
Lemma case_hides g f : hides (case_config g f) case_hid.
Proof.
  split; [intros _; reflexivity|]. intros t. cbn -[valid_plan in_window].
  assert (V : valid_plan 103 200 1 50) by (repeat split; [intros [H _]; now compute in H| |]; unfold Qle; cbn; lia).
  destruct (OutageProofs.outage_windows _ _ _ _ V eq_refl) as (n & o & E & W).
  assert (E2 : new_outage 3 103 200 1 50 = Some {| o_starts := [103; 103 + 50]%Q; o_length := 1; o_enable := true |}) by reflexivity.
  assert (EO : o = {| o_starts := [103; 103 + 50]%Q; o_length := 1; o_enable := true |}).
  { assert (A := outage_more _ (n + 3) _ _ _ _ _ E ltac:(lia)). assert (C := outage_more _ (n + 3) _ _ _ _ _ E2 ltac:(lia)). congruence. }
  rewrite <- W, EO. change (case_hid t) with (is_outage {| o_starts := [103; 103 + 50]%Q; o_length := 1; o_enable := true |} t).
  tauto.
Qed.
Lemma case_gnss_file g f b : gnss_file_of (case_config g f) case_fixes (gf_lines (case_files b)).
Proof.
  intros _. split.
  - intros x H. cbn in H. destruct H as [<-|[<-|[<-|[]]]]; (split; [split|]; reflexivity).
  - left. split; [reflexivity|]. split; [|reflexivity]. intros x H. cbn in H. destruct H as [<-|[<-|[<-|[]]]]; reflexivity.
Qed.
Lemma case_seven : Forall (fun r => length r = 7) case_lines. Proof. repeat constructor. Qed.
Definition case_events : list event :=
  [Sample (case_line 101); Fix (case_fix 101); Sample (case_line 102); Sample (case_line 103); Fix (case_fix 103); Fix (case_fix 104)].
Example C115_case : forall para u mem j p0, exists N, forall n, N <= n -> exists t,
  program (fun _ : list nat => 0%Q) (case_config true 0) para (case_files false) n u mem j p0 = Some (Done (Some t)) /\
  worked_off (case_config true 0) para mem j case_hid case_events t /\
  length (calls_for true case_hid case_events) = 4.
Proof.
  intros para u mem j p0.
  destruct (C115_text_files_partial _ (fun _ => 0%Q) (case_config true 0) para (case_files false) u mem j p0 case_hid case_lines case_fixes) as (N & P).
  - apply case_hides.
  - apply case_gnss_file.
  - reflexivity.
  - discriminate.
  - exact case_seven.
  - reflexivity.
  - reflexivity.
  - vm_compute; discriminate.
  - exists N. intros n Ln. destruct (P n Ln) as (t & E & W). exists t. split; [exact E|]. split; [exact W|]. reflexivity.
Qed.
Example C115_line_end_case : forall u, ConfigModel.g_enable (case_config false 0) = false /\
  Exists (fun r => ConfigModel.start_time (case_config false 0) <= nth 0 r 0)%Q case_lines /\
  call_for true case_hid (Sample [u; 0; 0; 0; 0; 0; 0]%Q) = [ATime (Some (Imu (Q2R u) (RealMath.V (Q2R 0) (Q2R 0) (Q2R (- 0))) (RealMath.V (Q2R 0) (Q2R 0) (Q2R (- 0)))))].
Proof. intros u. split; [reflexivity|]. split; [constructor; cbn; discriminate|reflexivity]. Qed.
Example C115_given_case : ConfigModel.a_mode (case_config true 0) = ALIGN_USE_GIVEN /\ samples_in (firstn 1 case_events) <> [].
Proof. split; [reflexivity|discriminate]. Qed.
Example C115_order_case : in_order case_lines /\ fixes_in_order case_fixes.
Proof. split; repeat constructor; cbn; discriminate. Qed.

(** ** C116 *)
(** files of the documented binary format (format 1): undefined behaviour for every file that is not empty *)
Theorem C116_imd_files_refuted : forall (B : Type) (decode : list B -> Q) c para (x : input_files B) u mem j p0 hid gs,
  hides c hid -> gnss_file_of c gs (gf_lines x) -> ConfigModel.i_format c = 1%Z -> if_bytes x <> [] ->
  exists N, forall n, N <= n -> program decode c para x n u mem j p0 = Some Undefined.
Proof.
  intros B decode c para x u mem j p0 hid gs H G F NE. destruct (hides_outage _ _ H) as (N & o & O & _). exists N. intros n L.
  unfold program. rewrite (O n L), (proj1 (gnss_file_reads _ _ _ G)). unfold read_imu_file. rewrite F. cbn [Z.eqb Pos.eqb].
  destruct (if_bytes x); [congruence|reflexivity].
Qed.
(** and so is a GNSS file of the ten column format (format 1), whatever the IMU file *)
Theorem C116_ten_columns_refuted : forall (B : Type) (decode : list B -> Q) c para (x : input_files B) u mem j p0 hid,
  hides c hid -> ConfigModel.g_enable c = true -> ConfigModel.g_format c = 1%Z -> gf_lines x <> [] ->
  exists N, forall n, N <= n -> program decode c para x n u mem j p0 = Some Undefined.
Proof.
  intros B decode c para x u mem j p0 hid H G F NE. destruct (hides_outage _ _ H) as (N & o & O & _). exists N. intros n L.
  unfold program. rewrite (O n L), G, F. destruct (gf_lines x); [congruence|reflexivity].
Qed.
Print Assumptions C116_ten_columns_refuted.
(** and a GNSS format that does not exist *)
Theorem C116_unknown_columns_refuted : forall (B : Type) (decode : list B -> Q) c para (x : input_files B) u mem j p0 hid,
  hides c hid -> ConfigModel.g_enable c = true -> ~ In (ConfigModel.g_format c) [0; 1; 4; 6]%Z -> gf_lines x <> [] ->
  exists N, forall n, N <= n -> program decode c para x n u mem j p0 = Some Undefined.
Proof.
  intros B decode c para x u mem j p0 hid H G F NE. destruct (hides_outage _ _ H) as (N & o & O & _). exists N. intros n L.
  unfold program. rewrite (O n L), G. unfold gnss_format_of.
  rewrite (proj2 (Z.eqb_neq _ 0%Z)), (proj2 (Z.eqb_neq _ 1%Z)), (proj2 (Z.eqb_neq _ 4%Z)), (proj2 (Z.eqb_neq _ 6%Z)); try (intros E; apply F; rewrite E; cbn; tauto).
  destruct (gf_lines x); [congruence|reflexivity].
Qed.
Print Assumptions C116_unknown_columns_refuted.
Print Assumptions C116_imd_files_refuted.
Example C116_case : hides (case_config true 1) case_hid /\ gnss_file_of (case_config true 1) case_fixes (map pos7_line case_fixes) /\
  ConfigModel.i_format (case_config true 1) = 1%Z.
Proof. split; [apply case_hides|]. split; [apply (case_gnss_file true 1 true)|reflexivity]. Qed.

(** ** C117 *)
(** what the documentation says a line of a text file means: rates in rad/s and g, sampled [rate] times a second *)
Definition documented (rate : Z) (gravity : R) (rfu : bool) (r : list Q) : imu :=
  let x k := nth k r 0%Q in
  let scale s v := RealMath.V (s * RealMath.vx v) (s * RealMath.vy v) (s * RealMath.vz v) in
  Imu (Q2R (x 0)) (scale (/ IZR rate)%R (axes rfu (x 1) (x 2) (x 3))) (scale (gravity / IZR rate)%R (axes rfu (x 4) (x 5) (x 6))).
(** the library gets something else for every line with a rotation, whatever the gravity, unless the rate is 1 *)
Theorem C117_rates_refuted : forall rate gravity rfu hid r, (1 < rate)%Z -> ~ (nth 1 r 0 == 0)%Q ->
  call_for rfu hid (Sample r) <> [ATime (Some (documented rate gravity rfu r))].
Proof.
  intros rate gravity rfu hid r Hr Hx E. unfold documented in E. cbn [call_for] in E.
  apply (f_equal (fun l => match l with [ATime (Some i)] => if rfu then RealMath.vy (i_gyro i) else RealMath.vx (i_gyro i) | _ => 0%R end)) in E.
  assert (X : (Q2R (nth 1 r 0%Q) = / IZR rate * Q2R (nth 1 r 0%Q))%R).
  { revert E. unfold axes. destruct rfu; cbn [RealMath.vx RealMath.vy RealMath.vz i_gyro]; intros E'; exact E'. }
  assert (N : (Q2R (nth 1 r 0%Q) <> 0)%R) by (intros Z0; apply Hx; apply eqR_Qeq; rewrite Z0; symmetry; unfold Q2R; cbn; ring).
  assert (R1 : (1 < IZR rate)%R) by (apply IZR_lt; exact Hr).
  assert (I1 : (/ IZR rate < 1)%R) by (rewrite <- Rinv_1; apply Rinv_lt_contravar; lra).
  assert (P : ((1 - / IZR rate) * Q2R (nth 1 r 0%Q) = 0)%R) by (rewrite Rmult_minus_distr_r, Rmult_1_l, <- X; ring).
  apply Rmult_integral in P. destruct P as [P|P]; [lra|contradiction].
Qed.
(** so no run over such a file is the run the documentation describes *)
Theorem C117_program_refuted : forall (B : Type) (decode : list B -> Q) c para (x : input_files B) u mem j p0 hid rs gs,
  hides c hid -> gnss_file_of c gs (gf_lines x) -> ConfigModel.i_format c = 0%Z -> (1 < ConfigModel.i_rate c)%Z ->
  rs <> [] -> Forall (fun r => length r = 7) rs -> if_tokens x = nums (concat rs) -> if_blank_end x = false ->
  (Z.of_nat (S (length rs + length gs)) <= int_max)%Z ->
  let es := behind (ConfigModel.start_time c) (events (ConfigModel.g_enable c) rs gs) in
  exists N, forall n, N <= n -> exists t, program decode c para x n u mem j p0 = Some (Done (Some t)) /\ worked_off c para mem j hid es t /\
    forall r gravity, In (Sample r) es -> ~ (nth 1 r 0 == 0)%Q ->
      call_for (Z.eqb (ConfigModel.i_frame c) 1) hid (Sample r) <> [ATime (Some (documented (ConfigModel.i_rate c) gravity (Z.eqb (ConfigModel.i_frame c) 1) r))].
Proof.
  intros B decode c para x u mem j p0 hid rs gs H G F RT NE S7 T BE L es.
  destruct (C115_text_files_partial B decode c para x u mem j p0 hid rs gs H G F NE S7 T BE L) as (N & P). exists N. intros n Ln.
  destruct (P n Ln) as (t & E & W). exists t. split; [exact E|]. split; [exact W|]. intros r gravity _ NZ. now apply C117_rates_refuted.
Qed.
Print Assumptions C117_rates_refuted.
Print Assumptions C117_program_refuted.
Example C117_case : forall gravity, call_for true case_hid (Sample (case_line 101)) <> [ATime (Some (documented 200 gravity true (case_line 101)))].
Proof. intros g. apply C117_rates_refuted; [lia|]. cbn. discriminate. Qed.

(** ** C118 *)
(** events later than the stop time are worked off like the others *)
Theorem C118_stop_time_refuted : forall (B : Type) (decode : list B -> Q) c para (x : input_files B) u mem j p0 hid rs gs,
  hides c hid -> gnss_file_of c gs (gf_lines x) -> ConfigModel.i_format c = 0%Z ->
  rs <> [] -> Forall (fun r => length r = 7) rs -> if_tokens x = nums (concat rs) -> if_blank_end x = false ->
  (Z.of_nat (S (length rs + length gs)) <= int_max)%Z ->
  let es := behind (ConfigModel.start_time c) (events (ConfigModel.g_enable c) rs gs) in
  Exists (fun e => ConfigModel.stop_time c < event_time e)%Q es ->
  exists N, forall n, N <= n -> exists t, program decode c para x n u mem j p0 = Some (Done (Some t)) /\
    length (filter (fun e => Qle_bool (event_time e) (ConfigModel.stop_time c)) es) < length (t_lines t).
Proof.
  intros B decode c para x u mem j p0 hid rs gs H G F NE S7 T BE L es X.
  destruct (C115_text_files_partial B decode c para x u mem j p0 hid rs gs H G F NE S7 T BE L) as (N & P). exists N. intros n Ln.
  destruct (P n Ln) as (t & E & W & _). exists t. split; [exact E|]. rewrite W. fold es. clear - X.
  assert (LE : forall l, length (filter (fun e => Qle_bool (event_time e) (ConfigModel.stop_time c)) l) <= length l).
  { induction l as [|a l IH]; cbn; [lia|]. destruct (Qle_bool _ _); cbn; lia. }
  induction X as [e l Hl|e l X IH]; cbn [filter length].
  - destruct (Qle_bool _ _) eqn:Q0; [apply Qle_bool_iff in Q0; exfalso; apply (Qlt_not_le _ _ Hl Q0)|]. specialize (LE l). lia.
  - destruct (Qle_bool _ _); cbn [length]; lia.
Qed.
(** two configurations that differ in nothing but the stop time give the same run *)
Theorem C118_stop_time_ignored : forall (B : Type) (decode : list B -> Q) c stop para (x : input_files B) n u mem j p0,
  let c' := {| ConfigModel.start_time := ConfigModel.start_time c; ConfigModel.stop_time := stop; ConfigModel.enable_rts := ConfigModel.enable_rts c;
     ConfigModel.g_enable := ConfigModel.g_enable c; ConfigModel.g_path := ConfigModel.g_path c; ConfigModel.g_format := ConfigModel.g_format c;
     ConfigModel.g_columns := ConfigModel.g_columns c; ConfigModel.g_index := ConfigModel.g_index c; ConfigModel.g_double := ConfigModel.g_double c;
     ConfigModel.g_arm := ConfigModel.g_arm c; ConfigModel.g_pitch := ConfigModel.g_pitch c; ConfigModel.g_yaw := ConfigModel.g_yaw c; ConfigModel.g_scale := ConfigModel.g_scale c;
     ConfigModel.i_path := ConfigModel.i_path c; ConfigModel.i_format := ConfigModel.i_format c; ConfigModel.i_frame := ConfigModel.i_frame c;
     ConfigModel.i_rate := ConfigModel.i_rate c; ConfigModel.i_para := ConfigModel.i_para c;
     ConfigModel.o_enable := ConfigModel.o_enable c; ConfigModel.o_path := ConfigModel.o_path c; ConfigModel.o_std := ConfigModel.o_std c; ConfigModel.o_nhc := ConfigModel.o_nhc c;
     ConfigModel.o_nhc_std := ConfigModel.o_nhc_std c; ConfigModel.o_angle := ConfigModel.o_angle c; ConfigModel.o_arm := ConfigModel.o_arm c;
     ConfigModel.o_scale := ConfigModel.o_scale c; ConfigModel.o_scale_std := ConfigModel.o_scale_std c;
     ConfigModel.z_zupt := ConfigModel.z_zupt c; ConfigModel.z_zupta := ConfigModel.z_zupta c; ConfigModel.z_zupt_std := ConfigModel.z_zupt_std c;
     ConfigModel.z_zupta_std := ConfigModel.z_zupta_std c; ConfigModel.z_window := ConfigModel.z_window c; ConfigModel.z_wide := ConfigModel.z_wide c;
     ConfigModel.z_threshold := ConfigModel.z_threshold c;
     ConfigModel.a_mode := ConfigModel.a_mode c; ConfigModel.a_threshold := ConfigModel.a_threshold c; ConfigModel.a_week := ConfigModel.a_week c;
     ConfigModel.a_gpst := ConfigModel.a_gpst c; ConfigModel.a_lat := ConfigModel.a_lat c; ConfigModel.a_lon := ConfigModel.a_lon c;
     ConfigModel.a_height := ConfigModel.a_height c; ConfigModel.a_vn := ConfigModel.a_vn c; ConfigModel.a_atti := ConfigModel.a_atti c;
     ConfigModel.u_enable := ConfigModel.u_enable c; ConfigModel.u_start := ConfigModel.u_start c; ConfigModel.u_stop := ConfigModel.u_stop c;
     ConfigModel.u_step := ConfigModel.u_step c; ConfigModel.u_len := ConfigModel.u_len c;
     ConfigModel.w_path := ConfigModel.w_path c; ConfigModel.w_format := ConfigModel.w_format c; ConfigModel.w_project := ConfigModel.w_project c;
     ConfigModel.w_pos := ConfigModel.w_pos c; ConfigModel.w_atti := ConfigModel.w_atti c;
     ConfigModel.p_enable := ConfigModel.p_enable c; ConfigModel.p_path := ConfigModel.p_path c; ConfigModel.p_std := ConfigModel.p_std c |} in
  program decode c' para x n u mem j p0 = program decode c para x n u mem j p0.
Proof. reflexivity. Qed.
Print Assumptions C118_stop_time_refuted.
Print Assumptions C118_stop_time_ignored.
(** six results although the files are past the stop time after two *)
Example C118_case : Exists (fun e => ConfigModel.stop_time (case_config true 0) < event_time e)%Q case_events /\
  behind (ConfigModel.start_time (case_config true 0)) (events true case_lines case_fixes) = case_events /\
  length (filter (fun e => Qle_bool (event_time e) (ConfigModel.stop_time (case_config true 0))) case_events) = 3.
Proof. split; [|split; reflexivity]. do 3 apply Exists_cons_tl. apply Exists_cons_hd. reflexivity. Qed.

(** ** C119 *)
Lemma imu_no_gpst u l : forall k d, In d (imu_samples u k l) -> s_gpst d = 0%Q.
Proof. induction l as [|a l IH]; intros k d ND; [destruct ND|]. destruct ND as [<-|ND]; [reflexivity|]. eapply IH; exact ND. Qed.
Lemma fix_no_gpst l : forall k d, In d (fix_samples k l) -> s_gpst d = 0%Q.
Proof. induction l as [|a l IH]; intros k d ND; [destruct ND|]. destruct ND as [<-|ND]; [reflexivity|]. eapply IH; exact ND. Qed.
(** the recorded delay of a fix is its time stamp, seconds of the week, because no reader fills in the time it is compared with *)
Theorem C119_delay_refuted : forall (g : bool) u imus fixes m s m', que m 0 = imu_samples u 0 imus -> que m 1 = (if g then fix_samples 0 fixes else []) ->
  que_num m = (if g then 2 else 1) -> get_next m = Done (Some s, m') -> s_type s = DATA_TYPE_GNSS ->
  (gnss_delay_time (check m') == s_time s)%Q.
Proof.
  intros g u imus fixes m s m' Q0 Q1 QN E TY. unfold get_next in E. destruct (Nat.ltb _ _); [discriminate|].
  destruct (heads m 0 (que_num m)) as [l|] eqn:HH; [|discriminate].
  destruct (nth_error (que m (argmin l)) (position m (argmin l))) as [d|] eqn:ND; [|discriminate]. injection E as <- <-.
  cbn [check check_update gnss_delay_time]. rewrite TY.
  assert (GP : s_gpst d = 0%Q).
  { assert (AL : argmin l < 2).
    { assert (forall k x y n, length n <= 2 - k -> y < 2 -> argmin_loop n k x y < 2) as A.
      { clear. intros k x y n. revert k x y. induction n as [|q n IH]; intros k x y Ln Ly; cbn [argmin_loop]; [exact Ly|]. cbn [length] in Ln.
        destruct (Qltb q x); apply IH; lia. }
      unfold argmin. apply A; [|lia]. rewrite QN in HH. destruct g; cbn [heads] in HH.
      - destruct (nth_error (que m 0) _); [|discriminate]. destruct (nth_error (que m 1) _); [|discriminate]. injection HH as <-. cbn. lia.
      - destruct (nth_error (que m 0) _); [|discriminate]. injection HH as <-. cbn. lia. }
    apply nth_error_In in ND. destruct (argmin l) as [|[|i]]; [| |lia].
    - rewrite Q0 in ND. exact (imu_no_gpst _ _ _ _ ND).
    - rewrite Q1 in ND. destruct g; [exact (fix_no_gpst _ _ _ ND)|destruct ND]. }
  rewrite GP. ring.
Qed.
Print Assumptions C119_delay_refuted.
Example C119_case : exists m1 m2 m3 a b s, let m := add_imu (imu_samples 0 0 (map (map Known) case_lines)) (add_gnss true (fix_samples 0 case_fixes) new_manager) in
  get_next m = Done (Some a, m1) /\ get_next m1 = Done (Some b, m2) /\
  get_next m2 = Done (Some s, m3) /\ s_type s = DATA_TYPE_GNSS /\ (gnss_delay_time (check m3) == 101)%Q.
Proof. do 6 eexists. vm_compute. repeat split; reflexivity. Qed.
(** cases of the formats added to C115 and C116: the same configuration with another GNSS format, an empty IMU file *)
Definition with_gnss_format (f : Z) (c : ConfigModel.config) : ConfigModel.config :=
  match c with ConfigModel.Build_config a1 a2 a3 a4 a5 _ a7 a8 a9 b1 b2 b3 b4 b5 b6 b7 b8 b9 c1 c2 c3 c4 c5 c6 c7 c8 c9 d1 d2 d3 d4 d5 d6 d7 d8 d9 e1 e2 e3 e4 e5 e6 e7 e8 e9 f1 f2 f3 f4 f5 f6 f7 f8 f9 g1 g2 =>
    ConfigModel.Build_config a1 a2 a3 a4 a5 f a7 a8 a9 b1 b2 b3 b4 b5 b6 b7 b8 b9 c1 c2 c3 c4 c5 c6 c7 c8 c9 d1 d2 d3 d4 d5 d6 d7 d8 d9 e1 e2 e3 e4 e5 e6 e7 e8 e9 f1 f2 f3 f4 f5 f6 f7 f8 f9 g1 g2 end.
Example C115_gga_case : forall para u mem j p0, exists out N, Forall2 same_place case_fixes out /\ forall n, N <= n -> exists t,
  program (fun _ : list nat => 0%Q) (with_gnss_format 6 (case_config true 0)) para
    (Files (nums (concat case_lines)) false [] (map (gga_line 2000 9 1 1) case_fixes)) n u mem j p0 = Some (Done (Some t)) /\
  worked_off (with_gnss_format 6 (case_config true 0)) para mem j case_hid (behind 100 (events true case_lines out)) t.
Proof.
  intros para u mem j p0.
  destruct (C115_gga_files_partial nat (fun _ => 0%Q) (with_gnss_format 6 (case_config true 0)) para (Files (nums (concat case_lines)) false [] (map (gga_line 2000 9 1 1) case_fixes))
    u mem j p0 case_hid case_lines case_fixes 2000 9 1 1) as (out & F & N & P); try reflexivity.
  - exact (case_hides true 0).
  - intros g H. cbn in H. destruct H as [<-|[<-|[<-|[]]]]; split; reflexivity.
  - discriminate.
  - exact case_seven.
  - vm_compute; discriminate.
  - exists out, N. split; [exact F|exact P].
Qed.
Example C115_unknown_case : let c := case_config true 7 in hides c case_hid /\ gnss_file_of c case_fixes (gf_lines (case_files false)) /\
  ConfigModel.i_format c <> 0%Z /\ ConfigModel.i_format c <> 2%Z /\ ConfigModel.i_format c <> 1%Z.
Proof. split; [apply case_hides|]. split; [apply case_gnss_file|]. repeat split; discriminate. Qed.
Example C116_ten_case : hides (with_gnss_format 1 (case_config true 0)) case_hid /\ gf_lines (case_files false) <> [] /\
  ~ In (ConfigModel.g_format (with_gnss_format 3 (case_config true 0))) [0; 1; 4; 6]%Z.
Proof. split; [exact (case_hides true 0)|]. split; [discriminate|]. cbn. intros H. repeat (destruct H as [H|H]; [discriminate|]). exact H. Qed.
