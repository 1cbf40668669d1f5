(** Model of App/AppCommon/Config.cpp / Config.h: saving and loading the configuration file, the IMU
    parameter file and the options handed to the filter.

    A YAML document is a list of (path, scalar); [node["a"]["b"][1]] is the path "a/b/1"; reading a
    missing path throws.  Simplifications: scalars survive printing and parsing exactly
    (yaml-cpp prints max_digits10 digits); numbers are rationals; the document tag (SetTag) is
    ignored; conversions to float are exact. *)
From Coq Require Import QArith Qround List String Bool ZArith Reals Qreals.
Import ListNotations.
Open Scope string_scope.

(** yaml-cpp: a scalar of the document (library; see the head of the file) *)
Inductive scalar := S_num (q : Q) | S_int (z : Z) | S_bool (b : bool) | S_str (s : string).
(** yaml-cpp: YAML::Node, see the head of the file *)
Definition doc := list (string * scalar).
(** Config.h: float[3] members *)
Definition vec3 := (Q * Q * Q)%type.

(** Config.h:20-127 *)
Record config := {
  start_time : Q; stop_time : Q; enable_rts : bool;
  g_enable : bool; g_path : string; g_format : Z; g_columns : Z; g_index : list Z; (* 9 entries *)
  g_double : bool; g_arm : vec3; g_pitch : Q; g_yaw : Q; g_scale : Q;
  i_path : string; i_format : Z; i_frame : Z; i_rate : Z; i_para : string;
  o_enable : bool; o_path : string; o_std : Q; o_nhc : bool; o_nhc_std : Q * Q; o_angle : vec3; o_arm : vec3;
  o_scale : Q; o_scale_std : Q;
  z_zupt : bool; z_zupta : bool; z_zupt_std : Q; z_zupta_std : Q; z_window : Z; z_wide : Z; z_threshold : Q;
  a_mode : Z; a_threshold : Q; a_week : Z; a_gpst : Q; a_lat : Q; a_lon : Q; a_height : Q; a_vn : vec3; a_atti : vec3;
  u_enable : bool; u_start : Q; u_stop : Q; u_step : Q; u_len : Q;
  w_path : string; w_format : Z; w_project : bool; w_pos : vec3; w_atti : vec3;
  p_enable : bool; p_path : string; p_std : Q }.

(** conversion of a float to int: towards zero *)
Definition truncate (q : Q) : Z := if Qle_bool 0 q then Qfloor q else Qceiling q.
(** Config.h: member [0] of a float[3] *)
Definition x3 (v : vec3) : Q := let '(x, _, _) := v in x.
(** Config.h: member [1] of a float[3] *)
Definition y3 (v : vec3) : Q := let '(_, y, _) := v in y.
(** Config.h: member [2] of a float[3] *)
Definition z3 (v : vec3) : Q := let '(_, _, z) := v in z.
(** Config.cpp:88-159: node[k][0..2] = v[0..2] *)
Definition save3 (k : string) (v : vec3) : doc :=
  [(append k "/0", S_num (x3 v)); (append k "/1", S_num (y3 v)); (append k "/2", S_num (z3 v))].
(** Config.h: index[i] of the GNSS columns *)
Definition idx (l : list Z) (i : nat) : Z := nth i l 0%Z.

(** Config.cpp:88-159  Config::SaveTo *)
Definition save_to (c : config) : doc :=
  ([("IMU-Config/file-path", S_str (i_path c)); ("IMU-Config/d-rate", S_int (i_rate c));
   ("IMU-Config/format", S_int (i_format c)); ("IMU-Config/parameter-path", S_str (i_para c));
   ("IMU-Config/frame", S_int (i_frame c));
   ("GNSS-Config/enable", S_bool (g_enable c)); ("GNSS-Config/file-path", S_str (g_path c));
   ("GNSS-Config/format", S_int (g_format c))] ++ save3 "GNSS-Config/level-arm" (g_arm c) ++
  [("GNSS-Config/double-antenna-enable", S_bool (g_double c)); ("GNSS-Config/antenna-pitch", S_num (g_pitch c));
   ("GNSS-Config/antenna-yaw", S_num (g_yaw c));
   ("Odometer/enable", S_bool (o_enable c)); ("Odometer/odometer-std", S_num (o_std c));
   ("Odometer/file-path", S_str (o_path c)); ("Odometer/NHC-enable", S_bool (o_nhc c));
   ("Odometer/NHC-std/0", S_num (fst (o_nhc_std c))); ("Odometer/NHC-std/1", S_num (snd (o_nhc_std c)))] ++
  save3 "Odometer/angle-bv" (o_angle c) ++ save3 "Odometer/wheel-level-arm" (o_arm c) ++
  [("Odometer/scale-factor", S_num (o_scale c)); ("Odometer/scale-factor-std", S_num (o_scale_std c));
   ("GNSS-Config/columns/0", S_int (idx (g_index c) 0)); ("GNSS-Config/columns/1", S_int (idx (g_index c) 1));
   ("GNSS-Config/columns/2", S_int (idx (g_index c) 2)); ("GNSS-Config/columns/3", S_int (idx (g_index c) 3));
   ("GNSS-Config/columns/4", S_int (idx (g_index c) 4)); ("GNSS-Config/columns/5", S_int (idx (g_index c) 5));
   ("GNSS-Config/columns/6", S_int (idx (g_index c) 6)); ("GNSS-Config/columns/7", S_int (idx (g_index c) 7));
   ("GNSS-Config/columns/8", S_int (idx (g_index c) 8));
   ("ZUPT-Config/ZUPT-enable", S_bool (z_zupt c)); ("ZUPT-Config/ZUPTA-enable", S_bool (z_zupta c));
   ("ZUPT-Config/zupt-std", S_num (z_zupt_std c)); ("ZUPT-Config/zupta-std", S_num (z_zupta_std c));
   ("ZUPT-Config/zupt-window", S_int (z_window c)); ("ZUPT-Config/static-wide", S_int (z_wide c));
   ("ZUPT-Config/threshold", S_num (z_threshold c));
   ("Align-Config/mode", S_int (a_mode c)); ("Align-Config/velocity-threshold", S_int (truncate (a_threshold c)));
   ("Align-Config/init-PVA/week", S_int (a_week c)); ("Align-Config/init-PVA/gpst", S_num (a_gpst c));
   ("Align-Config/init-PVA/lat", S_num (a_lat c)); ("Align-Config/init-PVA/lon", S_num (a_lon c));
   ("Align-Config/init-PVA/height", S_num (a_height c))] ++
  save3 "Align-Config/init-PVA/vn" (a_vn c) ++ save3 "Align-Config/init-PVA/atti" (a_atti c) ++
  [("Outage-Config/enable", S_bool (u_enable c)); ("Outage-Config/start", S_num (u_start c));
   ("Outage-Config/stop", S_num (u_stop c)); ("Outage-Config/step", S_num (u_step c));
   ("Outage-Config/outage", S_num (u_len c));
   ("start-time", S_num (start_time c)); ("stop-time", S_num (stop_time c));
   ("Output-Config/file-path", S_str (w_path c)); ("Output-Config/project-enable", S_bool (w_project c));
   ("Output-Config/atti-project", S_num (x3 (w_atti c)))])%list.

(** node[...].as<T>(): [None] is an exception *)
Fixpoint lookup (d : doc) (k : string) : option scalar :=
  match d with
  | [] => None
  | (k', v) :: r => if String.eqb k k' then Some v else lookup r k
  end.
(** node[k].as<float>(), as<double>(), Config.cpp:160-247 *)
Definition as_num (d : doc) (k : string) : option Q :=
  match lookup d k with Some (S_num q) => Some q | Some (S_int z) => Some (inject_Z z) | _ => None end.
(** node[k].as<int>(), Config.cpp:160-247 *)
Definition as_int (d : doc) (k : string) : option Z :=
  match lookup d k with Some (S_int z) => Some z | _ => None end.
(** node[k].as<bool>(), Config.cpp:160-247 *)
Definition as_bool (d : doc) (k : string) : option bool :=
  match lookup d k with Some (S_bool b) => Some b | _ => None end.
(** node[k].as<std::string>(), Config.cpp:160-247 *)
Definition as_str (d : doc) (k : string) : option string :=
  match lookup d k with Some (S_str s) => Some s | _ => None end.
(** an exception ends the function *)
Definition bind {A B} (x : option A) (f : A -> option B) : option B :=
  match x with Some a => f a | None => None end.
Notation "'let!' x ':=' e 'in' f" := (bind e (fun x => f)) (at level 200, x name, e at level 100, f at level 200).
(** Config.cpp:160-247: three entries of node[k] in turn *)
Definition as_vec (d : doc) (k : string) : option vec3 :=
  let! x := as_num d (append k "/0") in let! y := as_num d (append k "/1") in let! z := as_num d (append k "/2") in
  Some (x, y, z).

(** Config.cpp:160-247  Config::LoadFrom into the configuration [old]; [None]: an exception is thrown.
    (LoadImuPara, called at the end, is modelled below.) *)
Definition load_from (d : doc) (old : config) : option config :=
  let! v_start := as_num d "start-time" in
  let! v_stop := as_num d "stop-time" in
  let! v_rts := as_bool d "enable-rts" in
  let! v_wp := as_str d "Output-Config/file-path" in
  let! v_wf := as_int d "Output-Config/file-format" in
  let! v_we := as_bool d "Output-Config/project-enable" in
  let! v_wpos := as_vec d "Output-Config/position-project" in
  let! v_watt := as_vec d "Output-Config/attitude-project" in
  let! v_ip := as_str d "IMU-Config/file-path" in
  let! v_ir := as_int d "IMU-Config/d-rate" in
  let! v_if := as_int d "IMU-Config/format" in
  let! v_ipp := as_str d "IMU-Config/parameter-path" in
  let! v_ifr := as_int d "IMU-Config/frame" in
  let! v_ge := as_bool d "GNSS-Config/enable" in
  let! v_gp := as_str d "GNSS-Config/file-path" in
  let! v_gf := as_int d "GNSS-Config/format" in
  let! v_gs := as_num d "GNSS-Config/std-scale" in
  let! v_ga := as_vec d "GNSS-Config/level-arm" in
  let! v_gd := as_bool d "GNSS-Config/double-antenna-enable" in
  let! v_gpi := as_num d "GNSS-Config/antenna-pitch" in
  let! v_gy := as_num d "GNSS-Config/antenna-yaw" in
  let! v_oe := as_bool d "Odometer/enable" in
  let! v_os := as_num d "Odometer/odometer-std" in
  let! v_op := as_str d "Odometer/file-path" in
  let! v_on := as_bool d "Odometer/NHC-enable" in
  let! v_on0 := as_num d "Odometer/NHC-std/0" in
  let! v_on1 := as_num d "Odometer/NHC-std/1" in
  let! v_oa := as_vec d "Odometer/angle-bv" in
  let! v_ow := as_vec d "Odometer/wheel-level-arm" in
  let! v_osf := as_num d "Odometer/scale-factor" in
  let! v_osfs := as_num d "Odometer/scale-factor-std" in
  let! v_c0 := as_int d "GNSS-Config/columns/0" in
  let! v_c1 := as_int d "GNSS-Config/columns/1" in
  let! v_c2 := as_int d "GNSS-Config/columns/2" in
  let! v_z1 := as_bool d "ZUPT-Config/ZUPT-enable" in
  let! v_z2 := as_bool d "ZUPT-Config/ZUPTA-enable" in
  let! v_z3 := as_num d "ZUPT-Config/zupt-std" in
  let! v_z4 := as_num d "ZUPT-Config/zupta-std" in
  let! v_z5 := as_int d "ZUPT-Config/zupt-window" in
  let! v_z6 := as_int d "ZUPT-Config/static-wide" in
  let! v_z7 := as_num d "ZUPT-Config/threshold" in
  let! v_am := as_int d "Align-Config/mode" in
  let! v_at := as_num d "Align-Config/velocity-threshold" in
  let! v_aw := as_int d "Align-Config/init-PVA/week" in
  let! v_ag := as_num d "Align-Config/init-PVA/gpst" in
  let! v_ala := as_num d "Align-Config/init-PVA/lat" in
  let! v_alo := as_num d "Align-Config/init-PVA/lon" in
  let! v_ah := as_num d "Align-Config/init-PVA/height" in
  let! v_av := as_vec d "Align-Config/init-PVA/vn" in
  let! v_aa := as_vec d "Align-Config/init-PVA/atti" in
  let! v_u1 := as_bool d "Outage-Config/enable" in
  let! v_u2 := as_num d "Outage-Config/start" in
  let! v_u3 := as_num d "Outage-Config/stop" in
  let! v_u4 := as_num d "Outage-Config/step" in
  let! v_u5 := as_num d "Outage-Config/outage" in
  let! v_p1 := as_bool d "Pressure-Config/enable" in
  let! v_p2 := as_str d "Pressure-Config/file-path" in
  let! v_p3 := as_num d "Pressure-Config/height-std" in
  Some {|
  start_time := v_start; stop_time := v_stop; enable_rts := v_rts;
  g_enable := v_ge; g_path := v_gp; g_format := v_gf; g_columns := g_columns old;
  g_index := v_c0 :: v_c1 :: v_c2 :: skipn 3 (g_index old);
  g_double := v_gd; g_arm := v_ga; g_pitch := v_gpi; g_yaw := v_gy; g_scale := v_gs;
  i_path := v_ip; i_format := v_if; i_frame := v_ifr; i_rate := v_ir; i_para := v_ipp;
  o_enable := v_oe; o_path := v_op; o_std := v_os; o_nhc := v_on; o_nhc_std := (v_on0, v_on1); o_angle := v_oa; o_arm := v_ow;
  o_scale := v_osf; o_scale_std := v_osfs;
  z_zupt := v_z1; z_zupta := v_z2; z_zupt_std := v_z3; z_zupta_std := v_z4; z_window := v_z5; z_wide := v_z6; z_threshold := v_z7;
  a_mode := v_am; a_threshold := v_at; a_week := v_aw; a_gpst := v_ag; a_lat := v_ala; a_lon := v_alo; a_height := v_ah; a_vn := v_av; a_atti := v_aa;
  u_enable := v_u1; u_start := v_u2; u_stop := v_u3; u_step := v_u4; u_len := v_u5;
  w_path := v_wp; w_format := v_wf; w_project := v_we; w_pos := v_wpos; w_atti := v_watt;
  p_enable := v_p1; p_path := v_p2; p_std := v_p3 |}.

(** * units *)
Open Scope R_scope.
(** RgioeDataType.h:12-18; [_PI] is taken as the exact number *)
Definition c_deg : R := PI / 180.
(** RgioeDataType.h:13 _hour *)
Definition c_hour : R := 3600.
(** RgioeDataType.h:15 _sqrt_h *)
Definition c_sqrt_h : R := 60.
(** RgioeDataType.h:17 _mGal *)
Definition c_mGal : R := 1 / 100000.
(** RgioeDataType.h:18 _ppm *)
Definition c_ppm : R := 1 / 1000000.

(** ImuPara, RgioeDataType.h; three-vectors as functions of the axis *)
Record imu_para := {
  arw : R; vrw : R; ab_ini : nat -> R; gb_ini : nat -> R; as_ini : nat -> R; gs_ini : nat -> R;
  ab_std : nat -> R; gb_std : nat -> R; gs_std : nat -> R; as_std : nat -> R; at_corr : R; gt_corr : R }.
(** the numbers in the parameter file, by key *)
Record para_file := {
  f_arw : R; f_vrw : R; f_ab_ini : nat -> R; f_gb_ini : nat -> R; f_as_ini : nat -> R; f_gs_ini : nat -> R;
  f_ab_std : nat -> R; f_gb_std : nat -> R; f_gs_std : nat -> R; f_as_std : nat -> R; f_at_corr : R; f_gt_corr : R }.
(** Config.cpp:283-310  LoadImuPara *)
Definition load_para (f : para_file) : imu_para :=
  {| arw := f_arw f * c_deg / c_sqrt_h; vrw := f_vrw f / c_sqrt_h;
     gb_std := fun i => f_gb_std f i * c_deg / c_hour; gs_std := fun i => f_gs_std f i * c_ppm;
     as_std := fun i => f_as_std f i * c_ppm; ab_std := fun i => f_ab_std f i * c_mGal;
     gb_ini := fun i => f_gb_ini f i * c_deg / c_hour; gs_ini := fun i => f_gs_ini f i * c_ppm;
     ab_ini := fun i => f_ab_ini f i * c_mGal; as_ini := fun i => f_as_ini f i * c_ppm;
     gt_corr := f_gt_corr f * c_hour; at_corr := f_at_corr f * c_hour |}.
(** FileIO.cpp:71-96  operator<<(ImuPara): the printed numbers, in printing order
    (gs-ini and as-ini are not printed) *)
Definition print_para (p : imu_para) : list R :=
  [arw p / c_deg * c_sqrt_h; vrw p * c_sqrt_h;
   gb_std p 0%nat / c_deg * c_hour; gb_std p 1%nat / c_deg * c_hour; gb_std p 2%nat / c_deg * c_hour;
   ab_std p 0%nat / c_mGal; ab_std p 1%nat / c_mGal; ab_std p 2%nat / c_mGal;
   gs_std p 0%nat / c_ppm; gs_std p 1%nat / c_ppm; gs_std p 2%nat / c_ppm;
   as_std p 0%nat / c_ppm; as_std p 1%nat / c_ppm; as_std p 2%nat / c_ppm;
   gb_ini p 0%nat / c_deg * c_hour; gb_ini p 1%nat / c_deg * c_hour; gb_ini p 2%nat / c_deg * c_hour;
   ab_ini p 0%nat / c_mGal; ab_ini p 1%nat / c_mGal; ab_ini p 2%nat / c_mGal;
   at_corr p / c_hour; gt_corr p / c_hour].

(** RgioeOption, RgioeDataType.h; the fields GetOption does not name are zero *)
Record option_t := {
  op_para : imu_para; op_rate : Z; op_align : Z; op_align_thr : Q; op_gnss : bool; op_lb : vec3; op_gnss_scale : Q;
  op_nhc : bool; op_nhc_std : Q * Q; op_zupt : bool; op_zupt_std : Q; op_zupta : bool; op_zupta_std : Q;
  op_odo : bool; op_odo_std : Q; op_odo_scale : Q; op_odo_scale_std : Q; op_lb_wheel : vec3;
  op_angle_bv : R * R * R; op_pos_std : vec3; op_vel_std : vec3; op_atti_std : vec3;
  op_project : bool; op_pos_project : vec3; op_atti_project : R * R * R; op_rts : bool }.
(** Config.cpp GetOption: three entries times _deg *)
Definition degs (v : vec3) : R * R * R :=
  (Q2R (x3 v) * c_deg, Q2R (y3 v) * c_deg, Q2R (z3 v) * c_deg).
(** Config.cpp:249-281  GetOption *)
Definition get_option (c : config) (para : imu_para) : option_t :=
  {| op_para := para; op_rate := i_rate c; op_align := a_mode c; op_align_thr := a_threshold c;
     op_gnss := g_enable c; op_lb := g_arm c; op_gnss_scale := g_scale c;
     op_nhc := o_nhc c; op_nhc_std := o_nhc_std c; op_zupt := z_zupt c; op_zupt_std := z_zupt_std c;
     op_zupta := z_zupta c; op_zupta_std := z_zupta_std c; op_odo := o_enable c; op_odo_std := o_std c;
     op_odo_scale := o_scale c; op_odo_scale_std := o_scale_std c; op_lb_wheel := o_arm c;
     op_angle_bv := degs (o_angle c);
     op_pos_std := (0%Q, 0%Q, 0%Q); op_vel_std := (0%Q, 0%Q, 0%Q); op_atti_std := (0%Q, 0%Q, 0%Q);
     op_project := w_project c; op_pos_project := w_pos c; op_atti_project := degs (w_atti c);
     op_rts := enable_rts c |}.
