(** Output projection: what the results should be about. *)
From Coq Require Import Reals.
From Verif Require Import RealMath EarthModel ConvertModel ConvertSpec SmoothModel InsModel FusionBase FusionModel AlignModel ApiModel.
Open Scope R_scope.

(** the same filter with the projection switched on: lever arm l (metres, body axes), mounting angles a (radians) *)
Definition opt_projected (o : option_t) (l a : vec) : option_t :=
  Opt (o_arw o) (o_vrw o) (o_ab_ini o) (o_gb_ini o) (o_as_ini o) (o_gs_ini o) (o_ab_std o) (o_gb_std o) (o_at_corr o) (o_gt_corr o)
    (o_rate o) (o_align_mode o) (o_align_vel o) (o_lb_gnss o) (o_gnss_scale o) (o_nhc o) (o_nhc_std0 o) (o_nhc_std1 o)
    (o_zupt o) (o_zupt_std o) (o_zupta o) (o_zupta_std o) (o_odo o) (o_odo_std o) (o_odo_scale o) (o_lb_wheel o) (o_angle_bv o)
    (o_pos_std o) (o_vel_std o) (o_att_std o) true l a.
Definition projected (s : fusion) (l a : vec) : fusion :=
  Fu (f_ins s) (f_kf s) (f_Q0 s) (opt_projected (f_opt s) l a) (f_flag s) (f_Xd s) (f_iter s) (f_idx s) (f_smooth s)
    (f_cnt s) (f_min s) (f_pheight s) (f_gheight s) (f_base s).

(** the reported place in earth-fixed axes, metres *)
Definition reported_place (p : pva) : vec := lla_to_xyz (V (p_lat p * deg) (p_lon p * deg) (p_height p)).
(** what is reported, as a function of the e-th part of the lever arm *)
Definition reports (s : fusion) (l a : vec) (e : R) : option vec :=
  bind (output (projected s (vscale e l) a)) (fun p => Some (reported_place p)).
(** the velocity of the point l of a body that turns at the rate w (body axes) *)
Definition point_velocity (v : vec) (C : mat) (w l : vec) : vec := vadd v (mvec C (cross w l)).
