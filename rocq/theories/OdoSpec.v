(** Notions used to state C85. *)
From Coq Require Import Reals ZArith List Bool.
From Verif Require Import RealMath InsModel FusionBase AlignModel ApiModel.
Open Scope R_scope.

(** an option set without odometer: odo_enable = 0, odo_std = odo_scale = 0, and the non-holonomic constraint is off if
    the odometer was on *)
Definition no_odometer (o : option_t) : option_t :=
  Opt (o_arw o) (o_vrw o) (o_ab_ini o) (o_gb_ini o) (o_as_ini o) (o_gs_ini o) (o_ab_std o) (o_gb_std o) (o_at_corr o) (o_gt_corr o)
      (o_rate o) (o_align_mode o) (o_align_vel o) (o_lb_gnss o) (o_gnss_scale o)
      (o_nhc o && negb (o_odo o)) (o_nhc_std0 o) (o_nhc_std1 o) (o_zupt o) (o_zupt_std o) (o_zupta o) (o_zupta_std o)
      false 0 0 (o_lb_wheel o) (o_angle_bv o) (o_pos_std o) (o_vel_std o) (o_att_std o) (o_project o) (o_pos_project o) (o_att_project o).
(** the same call with that option set *)
Definition call_no_odometer (c : api_call) : api_call :=
  match c with
  | AInit j (Some ao) n => AInit j (Some (AOpt (ao_enable_gnss ao) (no_odometer (ao_rest ao)))) n
  | c => c
  end.
(** answers that agree in everything but the scale factor kd *)
Definition same_pva (p q : pva) : Prop :=
  p_week p = p_week q /\ p_gpst p = p_gpst q /\ p_lat p = p_lat q /\ p_lon p = p_lon q /\ p_height p = p_height q /\
  p_pos_std p = p_pos_std q /\ p_vn p = p_vn q /\ p_vn_std p = p_vn_std q /\ p_atti p = p_atti q /\ p_atti_std p = p_atti_std q /\
  p_sensors p = p_sensors q /\ p_gnss_mode p = p_gnss_mode q /\ p_gb p = p_gb q /\ p_ab p = p_ab q /\ p_gs p = p_gs q /\ p_as p = p_as q.
Definition same_answer (a b : answer) : Prop :=
  match a, b with
  | RPva (Some p), RPva (Some q) => same_pva p q
  | _, _ => a = b
  end.
