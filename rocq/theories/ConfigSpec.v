(** Specification vocabulary for configuration files. *)
From Coq Require Import QArith List String ZArith Reals.
From Verif Require Import ConfigModel.
Import ListNotations.
Open Scope string_scope.

(** the keys a complete configuration file needs beyond those that are saved *)
Definition missing_keys (c : config) : doc :=
  [("enable-rts", S_bool (enable_rts c)); ("Output-Config/file-format", S_int (w_format c));
   ("Output-Config/position-project/0", S_num (x3 (w_pos c)));
   ("Output-Config/position-project/1", S_num (y3 (w_pos c)));
   ("Output-Config/position-project/2", S_num (z3 (w_pos c)));
   ("Output-Config/attitude-project/0", S_num (x3 (w_atti c)));
   ("Output-Config/attitude-project/1", S_num (y3 (w_atti c)));
   ("Output-Config/attitude-project/2", S_num (z3 (w_atti c)));
   ("GNSS-Config/std-scale", S_num (g_scale c));
   ("Pressure-Config/enable", S_bool (p_enable c)); ("Pressure-Config/file-path", S_str (p_path c));
   ("Pressure-Config/height-std", S_num (p_std c))].

(** two configurations agree on everything but the alignment threshold and the column list *)
Definition agree (c d : config) : Prop :=
  (start_time c = start_time d /\ stop_time c = stop_time d /\ enable_rts c = enable_rts d) /\
  (g_enable c = g_enable d /\ g_path c = g_path d /\ g_format c = g_format d /\ g_double c = g_double d /\
   g_arm c = g_arm d /\ g_pitch c = g_pitch d /\ g_yaw c = g_yaw d /\ g_scale c = g_scale d) /\
  (i_path c = i_path d /\ i_format c = i_format d /\ i_frame c = i_frame d /\ i_rate c = i_rate d /\ i_para c = i_para d) /\
  (o_enable c = o_enable d /\ o_path c = o_path d /\ o_std c = o_std d /\ o_nhc c = o_nhc d /\
   o_nhc_std c = o_nhc_std d /\ o_angle c = o_angle d /\ o_arm c = o_arm d /\ o_scale c = o_scale d /\
   o_scale_std c = o_scale_std d) /\
  (z_zupt c = z_zupt d /\ z_zupta c = z_zupta d /\ z_zupt_std c = z_zupt_std d /\ z_zupta_std c = z_zupta_std d /\
   z_window c = z_window d /\ z_wide c = z_wide d /\ z_threshold c = z_threshold d) /\
  (a_mode c = a_mode d /\ a_week c = a_week d /\ a_gpst c = a_gpst d /\ a_lat c = a_lat d /\ a_lon c = a_lon d /\
   a_height c = a_height d /\ a_vn c = a_vn d /\ a_atti c = a_atti d) /\
  (u_enable c = u_enable d /\ u_start c = u_start d /\ u_stop c = u_stop d /\ u_step c = u_step d /\ u_len c = u_len d) /\
  (w_path c = w_path d /\ w_format c = w_format d /\ w_project c = w_project d /\ w_pos c = w_pos d /\ w_atti c = w_atti d) /\
  (p_enable c = p_enable d /\ p_path c = p_path d /\ p_std c = p_std d).

(** a configuration for the examples *)
Definition some_config : config :=
  {| start_time := 100; stop_time := 200; enable_rts := false;
     g_enable := true; g_path := "g"; g_format := 0; g_columns := 7; g_index := [1; 2; 3; 4; 5; 6; 7; 8; 9]%Z;
     g_double := false; g_arm := (1, 2, 3); g_pitch := 0; g_yaw := 0; g_scale := 1;
     i_path := "i"; i_format := 0; i_frame := 0; i_rate := 200; i_para := "p";
     o_enable := false; o_path := ""; o_std := 1; o_nhc := true; o_nhc_std := (1, 1); o_angle := (0, 0, 90); o_arm := (0, 0, 0);
     o_scale := 1; o_scale_std := 1;
     z_zupt := true; z_zupta := false; z_zupt_std := 1; z_zupta_std := 1; z_window := 1; z_wide := 1; z_threshold := 1;
     a_mode := 0; a_threshold := 1 # 2; a_week := 2000; a_gpst := 0; a_lat := 30; a_lon := 114; a_height := 20; a_vn := (0, 0, 0); a_atti := (0, 0, 0);
     u_enable := false; u_start := 0; u_stop := 0; u_step := 0; u_len := 0;
     w_path := "w"; w_format := 0; w_project := false; w_pos := (0, 0, 0); w_atti := (0, 0, 0);
     p_enable := false; p_path := ""; p_std := 1 |}%Q.

Open Scope R_scope.
(** * units in SI: one degree is pi/180 radian, one hour 3600 s, one mGal 1e-5 m/s^2 *)
Definition deg_to_rad (x : R) : R := x * PI / 180.
Definition per_hour (x : R) : R := x / 3600.
Definition per_sqrt_hour (x : R) : R := x / sqrt 3600.
