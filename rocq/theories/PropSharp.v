(** How well something measured is known behind the measurement: C162. *)
From Coq Require Import Reals ZArith Lra List.
From mathcomp Require Import all_ssreflect ssralg matrix.
From Verif Require Import Rfield RealMath ConvertModel InsModel FusionBase KalmanModel KalmanSpec KalmanProofs FusionSpec FusionModel FusionProofs FusionRest FusionCases
  InnovationProofs WheelProofs AccuracySpec AccuracyProofs SharpSpec SharpProofs SharpFilter SharpApi AlignModel ApiModel.
Import GRing.Theory.
Local Open Scope ring_scope.

(** ** C162: a navigating device with the antenna at the unit, read out, given any number of usable fixes without a sample in between,
    and read out again: on each axis (north, east, down) the reported accuracy v of the place, v0 before, satisfies
    1/v^2 >= 1/v0^2 + the sum of 1/(accuracy of the fix)^2 (written without division), so it is neither worse than before nor worse
    than any of the fixes *)
Theorem C162_fixes : forall d s gs b q0 v0, d_status d = RGIOE_STATUS_NAVIGATION -> d_fusion d = Some s ->
  symmetric (kP (f_kf s)) -> psd (kP (f_kf s)) -> o_lb_gnss (f_opt s) = vzero -> Rlt 0 (o_gnss_scale (f_opt s)) ->
  (forall g, List.In g gs -> fix_mode (g_mode g) = true /\ forall k, (k < 3)%N -> Rlt 0 (coord (g_std g) k)) ->
  api_do d (AResult b) = Some (d, RPva (Some q0)) -> p_pos_std q0 = Some v0 ->
  exists d' l, api_run d (List.map (fun g => AGnss (Some g)) gs) = Some (d', l) /\
    forall b' d'' q v, api_do d' (AResult b') = Some (d'', RPva (Some q)) -> p_pos_std q = Some v -> forall k, (k < 3)%N ->
      Rle (Rmult (Rmult (coord v k) (coord v k)) (Rplus 1 (Rmult (Rmult (coord v0 k) (coord v0 k)) (weight_of (f_opt s) k gs))))
          (Rmult (coord v0 k) (coord v0 k)).
Proof. exact api_sharp. Qed.
Print Assumptions C162_fixes.
Theorem C162_each_fix : forall d s gs b q0 v0, d_status d = RGIOE_STATUS_NAVIGATION -> d_fusion d = Some s ->
  symmetric (kP (f_kf s)) -> psd (kP (f_kf s)) -> o_lb_gnss (f_opt s) = vzero -> Rlt 0 (o_gnss_scale (f_opt s)) ->
  (forall g, List.In g gs -> fix_mode (g_mode g) = true /\ forall k, (k < 3)%N -> Rlt 0 (coord (g_std g) k)) ->
  api_do d (AResult b) = Some (d, RPva (Some q0)) -> p_pos_std q0 = Some v0 ->
  exists d' l, api_run d (List.map (fun g => AGnss (Some g)) gs) = Some (d', l) /\
    forall b' d'' q v, api_do d' (AResult b') = Some (d'', RPva (Some q)) -> p_pos_std q = Some v -> forall k, (k < 3)%N ->
      Rle (coord v k) (coord v0 k) /\
      forall g, List.In g gs -> Rle (coord v k) (Rmult (coord (g_std g) k) (sqrt (o_gnss_scale (f_opt s)))).
Proof. exact api_each. Qed.
Print Assumptions C162_each_fix.
(** with any lever arm the same holds for the place of the antenna. [combined a r a']: a' <= a r / (a + r) *)
Theorem C162_antenna : forall s g t k a a', symmetric (kP (f_kf s)) -> psd (kP (f_kf s)) -> Rle 0 (o_gnss_scale (f_opt s)) ->
  fix_mode (g_mode g) = true -> gnss_update s g = Some t -> (k < 3)%N ->
  variance_of (kP (f_kf s)) (fun e => coord (antenna_error s e) k) a ->
  variance_of (kP (f_kf t)) (fun e => coord (antenna_error s e) k) a' ->
  combined a (Rmult (Rmult (coord (g_std g) k) (coord (g_std g) k)) (o_gnss_scale (f_opt s))) a'.
Proof. exact fix_sharp. Qed.
Print Assumptions C162_antenna.
(** a wheel speed: the speed ahead with the deviation of the odometer and, with the constraint on sideways motion switched on, the
    speeds right and down with the deviations of that constraint *)
Theorem C162_wheel : forall s v t k a a', symmetric (kP (f_kf s)) -> psd (kP (f_kf s)) -> velocity_update_f s v = Some t ->
  (k < 3)%N -> (o_nhc (f_opt s) = false -> k = 0%N) ->
  variance_of (kP (f_kf s)) (fun e => coord (wheel_speed_error s e) k) a ->
  variance_of (kP (f_kf t)) (fun e => coord (wheel_speed_error s e) k) a' ->
  combined a (let o := f_opt s in let x := coord (V (o_odo_std o) (o_nhc_std0 o) (o_nhc_std1 o)) k in Rmult x x) a'.
Proof. exact wheel_sharp. Qed.
Print Assumptions C162_wheel.
(** the constraint on sideways motion alone: right and down *)
Theorem C162_sideways : forall s t k a a', symmetric (kP (f_kf s)) -> psd (kP (f_kf s)) -> measure_nhc s = Some t -> (k < 2)%N ->
  variance_of (kP (f_kf s)) (fun e => coord (wheel_speed_error s e) k.+1) a ->
  variance_of (kP (f_kf t)) (fun e => coord (wheel_speed_error s e) k.+1) a' ->
  combined a (let o := f_opt s in let x := coord (V (o_nhc_std0 o) (o_nhc_std1 o) 0) k in Rmult x x) a'.
Proof. exact side_sharp. Qed.
Print Assumptions C162_sideways.
(** the zero velocity update: the velocity north, east and down *)
Theorem C162_still : forall s t k a a', symmetric (kP (f_kf s)) -> psd (kP (f_kf s)) -> zero_velocity s = Some t -> (k < 3)%N ->
  variance_of (kP (f_kf s)) (fun e => coord (speed_error e) k) a -> variance_of (kP (f_kf t)) (fun e => coord (speed_error e) k) a' ->
  combined a (Rmult (o_zupt_std (f_opt s)) (o_zupt_std (f_opt s))) a'.
Proof. exact still_sharp. Qed.
Print Assumptions C162_still.
(** a barometric height that is used: the place of the antenna downwards; its deviation is the one configured for zero turn rates *)
Theorem C162_height : forall s h t a a', symmetric (kP (f_kf s)) -> psd (kP (f_kf s)) -> (4 < f_base s)%Z -> height_update s h = Some t ->
  variance_of (kP (f_kf s)) (fun e => coord (antenna_error s e) 2) a -> variance_of (kP (f_kf t)) (fun e => coord (antenna_error s e) 2) a' ->
  combined a (Rmult (o_zupta_std (f_opt s)) (o_zupta_std (f_opt s))) a'.
Proof. exact height_sharp. Qed.
Print Assumptions C162_height.
(** a navigating device that knows its place to one metre, and two fixes of one metre *)
Example C162_case : forall p, let s := case_start 1 false (V 1 1 1) in exists d q v,
  d_status d = RGIOE_STATUS_NAVIGATION /\ d_fusion d = Some s /\ symmetric (kP (f_kf s)) /\ psd (kP (f_kf s)) /\ o_lb_gnss (f_opt s) = vzero /\
  Rlt 0 (o_gnss_scale (f_opt s)) /\ good_fix (case_fix 100) /\
  api_do d (AResult p) = Some (d, RPva (Some q)) /\ p_pos_std q = Some v /\ coord v 0 = IZR 1 /\
  weight_of (f_opt s) 0 [:: case_fix 100; case_fix 100] = IZR 2.
Proof. exact sharp_case. Qed.
(** all the measurements can be made in this state, a height after the fifth call *)
Example C162_case_defined : let s := case_start 1 false (V 1 1 1) in
  symmetric (kP (f_kf s)) /\ psd (kP (f_kf s)) /\ (exists t, gnss_update s (case_fix 100) = Some t) /\ (exists t, velocity_update_f s (V 1 0 0) = Some t) /\
  (exists t, measure_nhc s = Some t) /\ (exists t, zero_velocity s = Some t) /\
  (let s := set_height s 0 0 5 in symmetric (kP (f_kf s)) /\ psd (kP (f_kf s)) /\ (4 < f_base s)%Z /\ exists t, height_update s 7 = Some t).
Proof. exact sharp_defined. Qed.
