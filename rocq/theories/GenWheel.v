(** Generated wheel speeds in the odometer update of the filter. *)
From Coq Require Import Reals Lra.
From mathcomp Require Import all_ssreflect ssralg matrix.
From Verif Require Import Rfield RealMath ConvertModel InsModel FusionBase KalmanModel KalmanSpec FusionProofs FusionModel FusionCases KalmanProofs InnovationProofs WheelSpec WheelProofs InsRest GenModel GenSpec GenAngle.
Import GRing.Theory.
Local Open Scope ring_scope.

(** the filter is where the result says, knows installation angles and scale factor, and uses only the speed ahead of a wheel at the unit *)
Definition follows (s : fusion) (atti vn angles : vec) (scale : R) : Prop :=
  n_vn (s_nav (f_ins s)) = vn /\ n_Cbn (s_nav (f_ins s)) = euler_to_dcm (radians atti) /\
  o_angle_bv (f_opt s) = angles /\ n_kd (s_nav (f_ins s)) = scale /\ o_lb_wheel (f_opt s) = vzero /\ o_nhc (f_opt s) = false.

Lemma follows_says s atti vn angles scale : follows s atti vn angles scale ->
  says s = mvec (euler_to_dcm angles) (mvec (mtrans (euler_to_dcm (radians atti))) vn).
Proof.
case=> E1 [E2 [E3 [E4 [E5 E6]]]]. rewrite /says /wheel_moves E1 E2 E3 E5. set w := ground_rate _ _ _ _.
set x := mvec (mtrans _) vn. have -> // : vadd x (cross w vzero) = x.
clearbody w x. case: w => *. case: x => *. rewrite /vadd /cross /vzero /=. congr V; ring.
Qed.

(** no correction is in the estimate *)
Definition nothing (k : kf 15) : Prop := kX k = 0.
(** the speed ahead alone decides *)
Lemma ahead_only s vel t : o_nhc (f_opt s) = false -> vx (misfit s vel) = IZR 0 -> velocity_update_f s vel = Some t -> kX (f_kf t) = 0.
Proof.
move=> H0 E. rewrite /velocity_update_f H0. cbv zeta.
have -> : wheel_velocity (sensors_set (f_ins s) SENSOR_ODO) (f_opt s) = says s by rewrite -says_value.
have -> : n_kd (s_nav (sensors_set (f_ins s) SENSOR_ODO)) = n_kd (s_nav (f_ins s)) by [].
rewrite -/(misfit s vel).
have Z : row_of (@column 3 (fun _ => misfit s vel)) 0 = 0.
  apply/matrixP => i j. rewrite !mxE. rewrite inordK //=.
rewrite Z => H. case: (bindP _ _ _ H) => k K [<-]. cbn [f_kf set_kf set_ins set_flag on_meas_update set_monitor].
case/update_gain: K => g [-> _]. by rewrite mulmx0.
Qed.


Local Close Scope ring_scope.
Local Open Scope R_scope.
Lemma speed_value t atti vn : w_forward (gen_line t vn atti) = speed_ahead (vneg three_two_four) atti vn / (14 / 10).
Proof. by []. Qed.
Lemma misfit_ahead s atti vn angles t : follows s atti vn angles (14 / 10) ->
  vx (misfit s (V (w_forward (gen_line t vn atti)) 0 0)) = speed_ahead angles atti vn - speed_ahead (vneg three_two_four) atti vn.
Proof.
move=> F. rewrite /misfit (follows_says _ _ _ _ _ F) speed_value. case: F => [_ [_ [_ [-> _]]]]. rewrite /vsub /vscale. cbn [vx].
rewrite -/(speed_ahead angles atti vn). set a := speed_ahead _ _ _. set b := speed_ahead _ _ _. field.
Qed.
(** the filter with the negated angles has nothing to correct *)
Lemma negated_agrees s atti vn t : follows s atti vn (vneg three_two_four) (14 / 10) ->
  vx (misfit s (V (w_forward (gen_line t vn atti)) 0 0)) = 0 /\
  forall s', velocity_update_f s (V (w_forward (gen_line t vn atti)) 0 0) = Some s' -> nothing (f_kf s').
Proof.
move=> F. have E : vx (misfit s (V (w_forward (gen_line t vn atti)) 0 0)) = 0 by rewrite (misfit_ahead _ _ _ _ _ F); ring.
split=> // s'. apply: ahead_only => //. by case: F => [_ [_ [_ [_ [_ ->]]]]].
Qed.
Lemma straight_ahead angles atti v : mvec (euler_to_dcm angles) (mvec (mtrans (euler_to_dcm (radians atti))) (straight angles atti v)) = V v 0 0.
Proof. rewrite /straight dcm_undo; last exact: dcm_rotation. apply: dcm_back. exact: dcm_rotation. Qed.
(** that with the labelled ones has *)
Lemma labelled_differs s atti v t : 0 < v -> follows s atti (straight (vneg three_two_four) atti v) three_two_four (14 / 10) ->
  w_forward (gen_line t (straight (vneg three_two_four) atti v) atti) = v / (14 / 10) /\
  vx (misfit s (V (w_forward (gen_line t (straight (vneg three_two_four) atti v) atti)) 0 0)) <= - (8 / 1000 * v).
Proof.
move=> P F. set vn := straight _ _ _ in F *. have St := straight_ahead (vneg three_two_four) atti v. rewrite -/vn in St.
split; first by rewrite speed_value /speed_ahead St.
rewrite (misfit_ahead _ _ _ _ _ F) /speed_ahead St. rewrite (negated_angles (3 * deg) (2 * deg) (4 * deg) _ _ St). cbn [vx].
have L := labelled_loss. set k := _ * Rsqr _ * _ in L *. nra.
Qed.
(** such states *)
Definition installed (angles vn : vec) : fusion :=
  let s := case_start 1 false (V 1 1 1) in
  let o := Opt 0 1 vzero vzero vzero vzero vzero vzero 3600 3600 100 0 1 vzero 1 false 1 1 false 1 false 1 true 1 (14 / 10) vzero angles vzero vzero vzero false vzero vzero in
  let n := s_nav (f_ins s) in
  Fu (ins_nav (f_ins s) (nav_kd (nav_vel n vn (n_dvn n) (n_vf n)) (14 / 10))) (f_kf s) (f_Q0 s) o 0 (f_Xd s) 0 0 (f_smooth s) 0 uint32_max int32_min int32_min 0.
Lemma installed_follows angles vn : follows (installed angles vn) vzero vn angles (14 / 10).
Proof.
rewrite /follows. do !split=> //. rewrite /installed /= /case_nav /=. congr euler_to_dcm. rewrite /radians /vzero /=. congr V; ring.
Qed.
Lemma installed_updates angles vn w : exists s', velocity_update_f (installed angles vn) (V w 0 0) = Some s'.
Proof.
have A : psd (kP (f_kf (installed angles vn))) := proj1 fix_gain_case. have B : o_odo_std (f_opt (installed angles vn)) <> IZR 0 by rewrite /=; lra.
case: (wheel_gain _ A B) => // g [p [_ H]]. case: (H (V w 0 0)) => t [E _]. by exists t.
Qed.
