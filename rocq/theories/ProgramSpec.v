(** What the properties of the whole program talk about: the events recorded in the two files, the order in which they should be worked
    off and the library calls they stand for. *)
From Coq Require Import QArith Qreals Reals ZArith List Bool Sorted.
From Verif Require RealMath SmoothModel FusionBase ConfigModel.
From Verif Require Import ApiModel.
From Verif Require Import ReaderModel.
Import ListNotations.

(** an event: an IMU line (time, three rotations, three velocity changes) or a fix *)
Inductive event := Sample (r : list Q) | Fix (g : gnss_data).
Definition event_time (e : event) : Q := match e with Sample r => nth 0 r 0%Q | Fix g => g_time g end.

(** both files worked off in the order of time, samples before fixes of the same time, until one of them is used up *)
Fixpoint merged (imu : list (list Q)) : list gnss_data -> list event :=
  fix gnss_loop gnss := match imu, gnss with
  | r :: rs, g :: gs => if Qle_bool (nth 0 r 0%Q) (g_time g) then Sample r :: merged rs gnss else Fix g :: gnss_loop gs
  | _, _ => []
  end.
Definition events (use_gnss : bool) (imu : list (list Q)) (gnss : list gnss_data) : list event :=
  if use_gnss then merged imu gnss else map Sample imu.
(** what is left behind the first event at or after the time [t] *)
Fixpoint behind (t : Q) (l : list event) : list event :=
  match l with [] => [] | e :: r => if Qle_bool t (event_time e) then r else behind t r end.

(** right-front-up to front-right-down *)
Definition axes (rfu : bool) (x y z : Q) : RealMath.vec :=
  if rfu then RealMath.V (Q2R y) (Q2R x) (Q2R (- z)) else RealMath.V (Q2R x) (Q2R y) (Q2R z).
(** the library call an event stands for; [hidden]: the fix is in a simulated outage *)
Definition call_for (rfu : bool) (hidden : Q -> bool) (e : event) : list api_call :=
  match e with
  | Sample r => let x k := nth k r 0%Q in
    [ATime (Some (SmoothModel.Imu (Q2R (x 0%nat)) (axes rfu (x 1%nat) (x 2%nat) (x 3%nat)) (axes rfu (x 4%nat) (x 5%nat) (x 6%nat))))]
  | Fix g => if hidden (g_time g) then []
    else let '(a, b, c) := g_std g in
      [AGnss (Some (FusionBase.Gnss (Q2R (g_lat g)) (Q2R (g_lon g)) (Q2R (g_height g)) (RealMath.V (Q2R a) (Q2R b) (Q2R c)) (Q2R (g_time g)) 1))]
  end.
Definition calls_for (rfu : bool) (hidden : Q -> bool) (l : list event) : list api_call := flat_map (call_for rfu hidden) l.

(** lines of a file in the order of time *)
Definition in_order (l : list (list Q)) : Prop := StronglySorted (fun a b => nth 0 a 0 <= nth 0 b 0)%Q l.
Definition fixes_in_order (l : list gnss_data) : Prop := StronglySorted (fun a b => g_time a <= g_time b)%Q l.
(** representable as seconds in an int: below 2147483647 s *)
Definition imaginable (t : Q) : Prop := (t < 2147483647)%Q.

(** the samples and the fixes among the events *)
Definition samples_in (l : list event) : list (list Q) := flat_map (fun e => match e with Sample r => [r] | Fix _ => [] end) l.
Definition fixes_in (l : list event) : list gnss_data := flat_map (fun e => match e with Sample _ => [] | Fix g => [g] end) l.
Definition prefix {A} (p l : list A) : Prop := exists r, l = p ++ r.
(** an unbroken piece of a list *)
Definition piece {A} (p l : list A) : Prop := exists a b, l = a ++ p ++ b.

(** ** what the configuration file and the IMU parameter file ask for *)
Definition triple (v : Q * Q * Q) (s : R) : RealMath.vec := let '(x, y, z) := v in RealMath.V (Q2R x * s) (Q2R y * s) (Q2R z * s).
Definition three (f : nat -> R) : RealMath.vec := RealMath.V (f 0%nat) (f 1%nat) (f 2%nat).
(** the options: errors of the IMU as loaded from the parameter file, the rest from the configuration, angles in radians; a
    configuration has no accuracies of the initial state, they are zero *)
Definition asked_options (c : ConfigModel.config) (para : ConfigModel.imu_para) (a : api_option) : Prop :=
  let o := ao_rest a in
  (FusionBase.o_arw o = ConfigModel.arw para /\ FusionBase.o_vrw o = ConfigModel.vrw para /\
   FusionBase.o_at_corr o = ConfigModel.at_corr para /\ FusionBase.o_gt_corr o = ConfigModel.gt_corr para /\
   FusionBase.o_ab_ini o = three (ConfigModel.ab_ini para) /\ FusionBase.o_gb_ini o = three (ConfigModel.gb_ini para) /\
   FusionBase.o_as_ini o = three (ConfigModel.as_ini para) /\ FusionBase.o_gs_ini o = three (ConfigModel.gs_ini para) /\
   FusionBase.o_ab_std o = three (ConfigModel.ab_std para) /\ FusionBase.o_gb_std o = three (ConfigModel.gb_std para)) /\
  (FusionBase.o_rate o = IZR (ConfigModel.i_rate c) /\ FusionBase.o_align_mode o = ConfigModel.a_mode c /\ FusionBase.o_align_vel o = Q2R (ConfigModel.a_threshold c)) /\
  (FusionBase.o_lb_gnss o = triple (ConfigModel.g_arm c) 1 /\ FusionBase.o_gnss_scale o = Q2R (ConfigModel.g_scale c)) /\
  (FusionBase.o_nhc o = ConfigModel.o_nhc c /\ FusionBase.o_nhc_std0 o = Q2R (fst (ConfigModel.o_nhc_std c)) /\ FusionBase.o_nhc_std1 o = Q2R (snd (ConfigModel.o_nhc_std c)) /\
   FusionBase.o_odo o = ConfigModel.o_enable c /\ FusionBase.o_odo_std o = Q2R (ConfigModel.o_std c) /\ FusionBase.o_odo_scale o = Q2R (ConfigModel.o_scale c) /\
   FusionBase.o_lb_wheel o = triple (ConfigModel.o_arm c) 1 /\ FusionBase.o_angle_bv o = triple (ConfigModel.o_angle c) (PI / 180)) /\
  (FusionBase.o_zupt o = ConfigModel.z_zupt c /\ FusionBase.o_zupt_std o = Q2R (ConfigModel.z_zupt_std c) /\
   FusionBase.o_zupta o = ConfigModel.z_zupta c /\ FusionBase.o_zupta_std o = Q2R (ConfigModel.z_zupta_std c)) /\
  (FusionBase.o_project o = ConfigModel.w_project c /\ FusionBase.o_pos_project o = triple (ConfigModel.w_pos c) 1 /\
   FusionBase.o_att_project o = triple (ConfigModel.w_atti c) (PI / 180)) /\
  (FusionBase.o_pos_std o = triple (0, 0, 0)%Q 1 /\ FusionBase.o_vel_std o = triple (0, 0, 0)%Q 1 /\ FusionBase.o_att_std o = triple (0, 0, 0)%Q 1).
(** the given initial state; what a configuration cannot tell is zero *)
Definition asked_state (c : ConfigModel.config) (p : pva) : Prop :=
  let z := triple (0, 0, 0)%Q 1 in
  (Z.of_nat (p_week p) = Z.max 0 (ConfigModel.a_week c) /\ p_gpst p = Q2R (ConfigModel.a_gpst c)) /\
  (p_lat p = Q2R (ConfigModel.a_lat c) /\ p_lon p = Q2R (ConfigModel.a_lon c) /\ p_height p = Q2R (ConfigModel.a_height c) /\
   p_vn p = triple (ConfigModel.a_vn c) 1 /\ p_atti p = Some (triple (ConfigModel.a_atti c) 1)) /\
  (p_pos_std p = Some z /\ p_vn_std p = Some z /\ p_atti_std p = Some z /\ p_sensors p = 0%nat /\ p_gnss_mode p = 0%nat /\
   p_gb p = z /\ p_ab p = z /\ p_gs p = z /\ p_as p = z /\ p_kd p = 0%R).
