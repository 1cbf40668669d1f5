(** Property theorems C43, C44, C60: configuration files.
    Model: ConfigModel.  Specification: ConfigSpec. *)
From Coq Require Import QArith Qround List String ZArith Reals Qreals Lra.
From Verif Require Import ConfigModel ConfigSpec ConfigProofs.
Import ListNotations.

(** * C43 *)
(** no saved configuration can be loaded again: loading throws *)
Theorem C43_round_trip_refuted : forall c old, load_from (save_to c) old = None.
Proof. exact save_not_loadable. Qed.
Print Assumptions C43_round_trip_refuted.
(** with the missing keys added by hand everything comes back except the alignment threshold (cut to an
    integer) and the column list *)
Theorem C43_completed_file_partial : forall c old,
  exists c', load_from (save_to c ++ missing_keys c)%list old = Some c' /\
    agree c' c /\ a_threshold c' = inject_Z (truncate (a_threshold c)) /\
    g_columns c' = g_columns old /\
    (List.length (g_index c) = 9%nat -> firstn 3 (g_index c') = firstn 3 (g_index c)) /\
    skipn 3 (g_index c') = skipn 3 (g_index old).
Proof. exact completed_loads. Qed.
Print Assumptions C43_completed_file_partial.
(** the cut is real: a threshold of half a metre per second becomes zero *)
Theorem C43_threshold_lost_refuted : exists c c', load_from (save_to c ++ missing_keys c)%list c = Some c' /\
  a_threshold c = (1 # 2)%Q /\ a_threshold c' = 0%Q.
Proof. exists some_config. eexists. split; [vm_compute; reflexivity|]. split; reflexivity. Qed.
Print Assumptions C43_threshold_lost_refuted.

(** all nine column numbers are in the saved file *)
Theorem C43_columns_saved : forall c, List.length (g_index c) = 9%nat ->
  map (fun k => lookup (save_to c) (append "GNSS-Config/columns/" k)) ["0"; "1"; "2"; "3"; "4"; "5"; "6"; "7"; "8"]%string =
  map (fun z => Some (S_int z)) (g_index c).
Proof.
  intros [? ? ? ? ? ? ? gi]. cbn [g_index]. intros L. do 9 (destruct gi as [|? gi]; [discriminate L|]). destruct gi; [reflexivity|discriminate L].
Qed.
Print Assumptions C43_columns_saved.
Example C43_columns_case : List.length (g_index some_config) = 9%nat. Proof. reflexivity. Qed.

(** * C44 *)
Open Scope R_scope.
Theorem C44_parameter_units : forall f, let p := load_para f in
  arw p = per_sqrt_hour (deg_to_rad (f_arw f)) /\ vrw p = per_sqrt_hour (f_vrw f) /\
  (forall i, gb_std p i = per_hour (deg_to_rad (f_gb_std f i))) /\
  (forall i, gb_ini p i = per_hour (deg_to_rad (f_gb_ini f i))) /\
  (forall i, ab_std p i = f_ab_std f i / 100000) /\ (forall i, ab_ini p i = f_ab_ini f i / 100000) /\
  (forall i, gs_std p i = f_gs_std f i / 1000000) /\ (forall i, gs_ini p i = f_gs_ini f i / 1000000) /\
  (forall i, as_std p i = f_as_std f i / 1000000) /\ (forall i, as_ini p i = f_as_ini f i / 1000000) /\
  at_corr p = f_at_corr f * 3600 /\ gt_corr p = f_gt_corr f * 3600.
Proof. exact para_units. Qed.
Print Assumptions C44_parameter_units.
Theorem C44_option_angles : forall c p, let o := get_option c p in
  op_angle_bv o = (deg_to_rad (Q2R (x3 (o_angle c))), deg_to_rad (Q2R (y3 (o_angle c))), deg_to_rad (Q2R (z3 (o_angle c)))) /\
  op_atti_project o = (deg_to_rad (Q2R (x3 (w_atti c))), deg_to_rad (Q2R (y3 (w_atti c))), deg_to_rad (Q2R (z3 (w_atti c)))).
Proof. exact option_angles. Qed.
Print Assumptions C44_option_angles.
(** the printed parameters are the numbers in the file *)
Theorem C44_print_is_file : forall f, print_para (load_para f) =
  [f_arw f; f_vrw f; f_gb_std f 0%nat; f_gb_std f 1%nat; f_gb_std f 2%nat;
   f_ab_std f 0%nat; f_ab_std f 1%nat; f_ab_std f 2%nat; f_gs_std f 0%nat; f_gs_std f 1%nat; f_gs_std f 2%nat;
   f_as_std f 0%nat; f_as_std f 1%nat; f_as_std f 2%nat; f_gb_ini f 0%nat; f_gb_ini f 1%nat; f_gb_ini f 2%nat;
   f_ab_ini f 0%nat; f_ab_ini f 1%nat; f_ab_ini f 2%nat; f_at_corr f; f_gt_corr f].
Proof. exact para_print. Qed.
Print Assumptions C44_print_is_file.

(** * C60  configured values take effect *)
(** static detection settings, barometer and double-antenna settings never reach the filter *)
Theorem C60_settings_reach_filter_refuted : forall c d p,
  enable_rts c = enable_rts d -> g_enable c = g_enable d -> g_arm c = g_arm d -> g_scale c = g_scale d ->
  i_rate c = i_rate d -> o_enable c = o_enable d -> o_std c = o_std d -> o_nhc c = o_nhc d ->
  o_nhc_std c = o_nhc_std d -> o_angle c = o_angle d -> o_arm c = o_arm d -> o_scale c = o_scale d ->
  o_scale_std c = o_scale_std d -> z_zupt c = z_zupt d -> z_zupta c = z_zupta d -> z_zupt_std c = z_zupt_std d ->
  z_zupta_std c = z_zupta_std d -> a_mode c = a_mode d -> a_threshold c = a_threshold d ->
  w_project c = w_project d -> w_pos c = w_pos d -> w_atti c = w_atti d ->
  (* nothing is said about z_window, z_wide, z_threshold, p_*, g_double, g_pitch, g_yaw *)
  get_option c p = get_option d p.
Proof. exact settings_ignored. Qed.
Print Assumptions C60_settings_reach_filter_refuted.
(** and the initial accuracies of a given start are always 0 *)
Theorem C60_initial_accuracy_is_zero : forall c p, let o := get_option c p in
  op_pos_std o = (0, 0, 0)%Q /\ op_vel_std o = (0, 0, 0)%Q /\ op_atti_std o = (0, 0, 0)%Q.
Proof. intros. repeat split. Qed.
Print Assumptions C60_initial_accuracy_is_zero.
(** the remaining settings are passed on unchanged *)
Theorem C60_passed_on_partial : forall c p, let o := get_option c p in
  op_para o = p /\ op_rate o = i_rate c /\ op_align o = a_mode c /\ op_align_thr o = a_threshold c /\
  op_gnss o = g_enable c /\ op_lb o = g_arm c /\ op_gnss_scale o = g_scale c /\ op_nhc o = o_nhc c /\
  op_nhc_std o = o_nhc_std c /\ op_zupt o = z_zupt c /\ op_zupt_std o = z_zupt_std c /\ op_zupta o = z_zupta c /\
  op_zupta_std o = z_zupta_std c /\ op_odo o = o_enable c /\ op_odo_std o = o_std c /\ op_odo_scale o = o_scale c /\
  op_odo_scale_std o = o_scale_std c /\ op_lb_wheel o = o_arm c /\ op_project o = w_project c /\
  op_pos_project o = w_pos c /\ op_rts o = enable_rts c.
Proof. intros. repeat split. Qed.
Print Assumptions C60_passed_on_partial.
