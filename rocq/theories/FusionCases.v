(** Concrete cases of the filter. *)
From Coq Require Import Reals ZArith List Lia Lra.
From mathcomp Require Import all_ssreflect ssralg matrix.
From Verif Require Import RealMath EarthModel ConvertModel ConvertSpec ConvertProofs SmoothModel InsModel InsProofs InsRest InsSpec InsRest2 FusionBase Rfield KalmanModel KalmanSpec KalmanProofs FusionModel FusionSpec FusionProofs FusionFeed FusionCov FusionRest FusionFix FusionHeight.
Import GRing.Theory.
Local Open Scope ring_scope.

(** a unit at rest on the equator, level and heading north, 100 samples a second; v: velocity random walk, c: constraints on *)
Definition case_opt (v : R) (c : bool) : option_t :=
  Opt 0 v vzero vzero vzero vzero vzero vzero 3600 3600 100 0 1 vzero 1 c 1 1 c 1 false 1 false 1 1 vzero vzero vzero vzero vzero false vzero vzero.
(** std: of the initial position *)
Definition case_nav (std : vec) : navepoch :=
  let n := make_nav 0 vzero vzero vzero in
  Nav (n_gpst n) (n_pos n) (n_vn n) (n_atti n) (n_dvn n) (n_vf n) (n_Cbn n) (n_Cne n) (n_Qbn n) (n_Qne n)
      (n_gb n) (n_ab n) (n_gs n) (n_as n) std vzero vzero (n_kd n) 0 0 0.
Definition case_ins : ins := Ins (case_nav vzero) 0 vzero vzero vzero vzero vzero vzero 0.
Definition case_q : quat := euler_to_quaternion vzero.
Definition case_sample (h t : R) : imu :=
  Imu t (rest_gyro (quaternion_to_dcm case_q) 0 (Rdiv 1 100)) (mvec (mtrans (quaternion_to_dcm case_q)) (balanced 0 h (Rdiv 1 100))).

Lemma not_zero_b x : x <> IZR 0 -> is_zero x = false.
Proof. rewrite /is_zero. by case: Req_EM_T. Qed.

Definition case_start (v : R) (c : bool) (std : vec) : fusion :=
  let i := init_pva case_ins (case_nav std) 100 in let d : 'M[R]_15 := diagonal (std_diag (case_nav std) (case_opt v c)) in
  Fu (ins_nav i (nav_kd (s_nav i) 1)) (Kf 0 (d *m d)) (diagonal (Q0_diag (case_opt v c))) (case_opt v c) 0 0 0 0
     (smooth_new five_nano 2 10) 0 uint32_max int32_min int32_min 0.
Lemma case_init v c std : initialize (fusion_new case_ins (case_opt v c)) (case_nav std) (case_opt v c) = Some (case_start v c std).
Proof.
have h1 : is_zero 100 = false by apply: not_zero_b; exact: (not_0_IZR 100).
have h2 : is_zero 3600 = false by apply: not_zero_b; exact: (not_0_IZR 3600).
by rewrite /initialize /= h1 h2.
Qed.
Lemma case_place : place_ok 0 0 0.
Proof. exact: place_origin. Qed.
Lemma case_rest v c std a g : at_rest (f_ins (case_start v c std)) 0 0 0 (Rdiv 1 100) case_q a g.
Proof.
split; last by (split => //; left).
have := init_at_rest case_ins 0 0 0 0 vzero 1 a g. by move=> [].
Qed.
Lemma case_unit : qnorm2 case_q = 1.
Proof. exact: euler_quaternion_unit. Qed.

(** constraints on: any number of samples *)
Lemma case_history std ts : (Z.of_nat (length ts) <= int_max)%Z ->
  exists2 t, run_calls (case_start 0 true std) (List.map (fun t => CallImu (case_sample 0 t)) ts) = Some t &
    n_pos (s_nav (f_ins t)) = vzero /\ n_vn (s_nav (f_ins t)) = vzero.
Proof.
move=> hl.
have st : still (case_opt 0 true) 0 0 0 case_q (i_acce (case_sample 0 0)) (i_gyro (case_sample 0 0)) (case_start 0 true std).
  split; first exact: case_rest. split => //. split.
    apply: diag_zero => b. case: b => [|[|[|[|b]]]] //=; rewrite /vzero; congr (V _ _ _); by case: real_zeros.
  split => //. rewrite [kP _]/=. set d := diagonal _.
  have -> : d *m d = d *m 1%:M *m d^T by rewrite mulmx1 (diagonal_symmetric 15).
  apply: psd_conj. apply: pd_psd. exact: one_pd.
have o1 : rest_options (case_opt 0 true) by split; [exact: (IZR_lt 0 100)|split; [exact: (not_0_IZR 3600)|split; [exact: (not_0_IZR 3600)|do 2!(split => //); do 2!(split; first exact: Rlt_0_1); exact: Rlt_0_1]]].
have [t e [[[p [v _]] _] _]] := rest_history (case_opt 0 true) 0 0 0 case_q ts case_place case_unit o1 _ st (Z.le_refl 0) hl hl.
by exists t.
Qed.

(** constraints off: the first sample *)
Lemma case_first v std t : exists2 u, time_update (case_start v false std) (case_sample 0 t) = Some u &
  n_pos (s_nav (f_ins u)) = vzero /\ n_vn (s_nav (f_ins u)) = vzero.
Proof.
have Hdt : Rdiv 1 100 <> IZR 0 by exact: real_hundredth.
have [i [F [I _]]] := sample_rest _ _ _ _ _ _ t case_unit Hdt case_place (case_rest v false std _ _).
rewrite /time_update /=. rewrite /propagate.
have [sm hsm] : exists sm, smooth_update (smooth_new five_nano 2 10) (case_sample 0 t) = Some sm.
  rewrite /smooth_update /=. case: Rlt_dec => _; by eexists.
rewrite [f_smooth _]/= hsm [f_ins _]/=. rewrite -/(case_sample 0 t) in F. 
have -> : forward (ins_nav (init_pva case_ins (case_nav std) 100) (nav_kd (s_nav (init_pva case_ins (case_nav std) 100)) 1)) (case_sample 0 t) = Some i by [].
cbn [bind].
have -> : transfer i (f_opt (case_start v false std)) = Some (blocks (phi_block i 3600 3600)).
  rewrite /transfer (transfer_place i 0 0 0) //; try exact: case_place; try exact: (not_0_IZR 3600). by move: I => [[]].
cbn [bind]. rewrite {1}/zupt_step /= /nhc_step /=. eexists; first reflexivity. move: I => [[p [w _]] _]. by rewrite /= p w.
Qed.

(** a fix 100 m above, as accurate as the initial height *)
Definition case_fix (h : R) : gnss := Gnss 0 0 h (V 1 1 1) 0 4.
Lemma case_above t : exists u, run_calls (case_start 1 false (V 1 1 1)) [:: CallGnss (case_fix 100); CallImu (case_sample 50 t)] = Some u /\
  n_pos (s_nav (f_ins u)) = V 0 0 50 /\ n_vn (s_nav (f_ins u)) = vzero.
Proof.
have e0 : Rmult 0 deg = 0 by exact: Rmult_0_l.
have r1 : Rlt 0 (fix_var (case_opt 1 false) 1) by exact: real_ones.
have e50 : Rplus 0 (Rmult (weight (sq 1) (fix_var (case_opt 1 false) 1)) (Rminus 100 0)) = IZR 50 by exact: real_fifty.
have hq : unconstrained (case_opt 1 false) by split => //; left.
have := fix_above case_ins (case_opt 1 false) (case_nav (V 1 1 1)) (case_opt 1 false) _ (case_fix 100) case_q t
  (case_init 1 false (V 1 1 1)) erefl hq (IZR_lt 0 100 erefl) erefl.
cbv zeta. cbn [g_lat g_lon g_std g_height case_fix vx vy vz].
have -> : vz (n_pos (case_nav (V 1 1 1))) = IZR 0 by []. have -> : vz (n_pos_std (case_nav (V 1 1 1))) = IZR 1 by [].
rewrite !e0 e50.
have nr : nav_rest (case_nav (V 1 1 1)) 0 0 0 case_q.
  have := init_at_rest case_ins 0 0 0 0 vzero 1 vzero vzero. by move=> [].
move=> H. have [u [E [P [W _]]]] := H nr erefl case_unit r1 r1 r1 place_origin place_fifty. by exists u.
Qed.
(** that fix followed by one at the initial place *)
Lemma case_erased : exists u v, gnss_update (case_start 1 false (V 1 1 1)) (case_fix 100) = Some u /\
  kX (f_kf u) <> 0 /\ gnss_update u (case_fix 0) = Some v /\ kX (f_kf v) = 0.
Proof.
have e0 : Rmult 0 deg = 0 by exact: Rmult_0_l.
have r1 : Rlt 0 (fix_var (case_opt 1 false) 1) by exact: real_ones.
have [k [E X]] := first_fix _ _ _ _ (case_fix 100) (case_init 1 false (V 1 1 1)) erefl erefl r1 r1 r1.
set u := Fu _ _ _ _ _ _ _ _ _ _ _ _ _ _ in E.
have Z h : pos_z (f_ins (case_start 1 false (V 1 1 1))) vzero (fix_place (case_fix h)) = V 0 0 (Rminus h 0).
  rewrite /fix_place. cbn [g_lat g_lon g_height case_fix]. rewrite e0. exact: innovation_vertical.
have pP : psd (kP (f_kf u)).
  have := E. rewrite gnss_accepted // => /(bindP _ _ _)[k' hk [ek]]. rewrite /= -ek.
  apply: update_psd hk; last first.
    apply: diagonal_psd => i. rewrite mxE eqxx. case: (_ %% _)%N => [|[|c]] /=; apply: Rlt_le; exact: real_ones.
  rewrite [kP _]/=. set d := diagonal _.
  have -> : d *m d = d *m 1%:M *m d^T by rewrite mulmx1 (diagonal_symmetric 15).
  apply: psd_conj. apply: pd_psd. exact: one_pd.
have pR : pd (fix_noise (f_opt u) (case_fix 0)).
  apply: diagonal_pd => i. rewrite mxE eqxx. case: (_ %% _)%N => [|[|c]] /=; exact: real_ones.
have [k2 hk2] := update_defined _ _ (f_kf u) (H_pos u) (z_pos u (fix_place (case_fix 0))) _ pP pR.
have E2 := gnss_accepted u (case_fix 0) erefl. rewrite hk2 in E2. cbn [bind] in E2.
exists u. eexists; split; first exact: E. split.
  rewrite X Z => /matrixP/(_ (st 2) ord0). have s2 : st 2 = 2%N :> nat by exact: st_val. rewrite !mxE s2 /=. exact: real_half_hundred.
have K := second_fix_replaces _ _ _ _ _ (erefl : gnss_check (case_fix 100) = true) (erefl : gnss_check (case_fix 0) = true) E E2.
split; first exact: E2. apply: K. rewrite (Z 0). rewrite /vzero; congr (V _ _ _). exact: Rminus_0_r.
Qed.

(** six barometric heights and no fix *)
Lemma case_heights : exists u t, run_calls (case_start 1 false (V 1 1 1)) (List.repeat (CallHeight 0) 5) = Some u /\
  height_update u 0 = Some t /\ sensor t 7 = true /\ height_z u (Rplus int32_min (Rminus 0 0)) = IZR (-2147483648).
Proof.
set s := case_start 1 false (V 1 1 1).
pose c i := sensors_clear i SENSOR_HEIGHT.
pose i5 := c (c (c (c (c (f_ins s))))).
pose u := Fu i5 (f_kf s) (f_Q0 s) (f_opt s) 0 0 0 0 (f_smooth s) 0 uint32_max 0 int32_min 5.
have E : run_calls s (List.repeat (CallHeight 0) 5) = Some u by [].
have pP : psd (kP (f_kf u)).
  rewrite [kP _]/=. set d := diagonal _.
  have -> : d *m d = d *m 1%:M *m d^T by rewrite mulmx1 (diagonal_symmetric 15).
  apply: psd_conj. apply: pd_psd. exact: one_pd.
have pR : pd (one_by_one (Rmult 1 1)) by apply: one_pd1; exact: Rmult_lt_0_compat Rlt_0_1 Rlt_0_1.
have hz m : height_z u m = Rminus m 0.
  rewrite /height_z. have -> : pos_z (f_ins u) (o_lb_gnss (f_opt u)) (V (vx (n_pos (s_nav (f_ins u)))) (vy (n_pos (s_nav (f_ins u)))) m) = V 0 0 (Rminus m 0); last by [].
  exact: innovation_vertical.
have [k hk] := update_defined _ _ (f_kf u) (row_of (H_pos u) 2) (one_by_one (height_z u (Rminus (Rplus int32_min 0) 0))) _ pP pR.
have [t [E2 B]] := height_defined u 0 k erefl erefl erefl hk.
exists u, t; split; first exact: E. split; first exact: E2. split => //. rewrite hz. exact: real_int_min.
Qed.
Lemma case_above_calls t : exists s u v, initialize (fusion_new case_ins (case_opt 1 false)) (case_nav (V 1 1 1)) (case_opt 1 false) = Some s /\
  do_call s (CallGnss (case_fix 100)) = Some u /\ max_iter (f_min u) = 1%Z /\
  run_calls u (List.map CallImu [:: case_sample 50 t]) = Some v /\ n_pos (s_nav (f_ins v)) = V 0 0 50.
Proof.
have [v [E [P _]]] := case_above t.
move: E => /(bindP _ _ _)[u hu hv]. exists (case_start 1 false (V 1 1 1)), u, v. split; first exact: case_init.
split => //. split; last by split.
move: hu. rewrite /do_call gnss_accepted // => /(bindP _ _ _)[k _ [<-]]. by [].
Qed.
Lemma case_level : level_correction (Err (V 0 0 5) (V 1 2 3) vzero (V 1 1 1) (V 2 2 2)) /\ place_ok 0 0 0 /\
  n_pos (case_nav vzero) = V 0 0 0 /\ n_Qne (case_nav vzero) = lla_to_qne 0 0 /\ qnorm2 (n_Qbn (case_nav vzero)) = 1 /\
  n_Cbn (case_nav vzero) = quaternion_to_dcm (n_Qbn (case_nav vzero)).
Proof.
split; first by []. split; first exact: case_place. split => //. split => //. split; first exact: case_unit.
symmetry. exact: euler_dcm_quaternion.
Qed.
Lemma case_schedule std : exists t, run_calls (case_start 0 true std)
  (List.map (fun t => CallImu (case_sample 0 t)) (List.repeat 0 32) ++ [:: CallImu (case_sample 0 0)])%list = Some t /\ sensor t 4 = true.
Proof.
have [t e _] := case_history std (List.repeat 0 33) ltac:(by []).
exists t. have E : run_calls (case_start 0 true std)
  (List.map (fun t => CallImu (case_sample 0 t)) (List.repeat 0 32) ++ [:: CallImu (case_sample 0 0)])%list = Some t by exact: e.
split; first exact: E.
have [sm [_ [-> _]]] := schedule (fusion_new case_ins (case_opt 0 true)) (case_nav std) (case_opt 0 true) _ _ _ _ (Z.le_refl 0) (case_init 0 true std) E.
by [].
Qed.
