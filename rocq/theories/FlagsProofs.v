(** Which sensors a result says were used (C84). *)
From Coq Require Import Reals ZArith List Lia Lra Bool.
From mathcomp Require Import all_ssreflect ssralg matrix.
From Verif Require Import RealMath SmoothModel InsModel InsProofs FusionBase Rfield KalmanModel FusionModel FusionSpec PostTime AlignModel ApiModel FusionCases FlagsSpec.

Lemma lor_bit a b k : Nat.testbit (Nat.lor a b) k = Nat.testbit a k || Nat.testbit b k.
Proof. exact: Nat.lor_spec. Qed.
Lemma ldiff_bit a b k : Nat.testbit (Nat.ldiff a b) k = Nat.testbit a k && ~~ Nat.testbit b k.
Proof. exact: Nat.ldiff_spec. Qed.

(** the number behind the flags *)
Definition fl (s : fusion) : nat := n_sensors (s_nav (f_ins s)).
Lemma extrapolate_flags i j : extrapolate i = Some j -> n_sensors (s_nav j) = n_sensors (s_nav i).
Proof.
  rewrite /extrapolate => H. apply bind_some in H. destruct H as (w & _ & H). apply bind_some in H. destruct H as (ll & _ & H).
  apply bind_some in H. destruct H as (w2 & _ & H). by injection H as <-.
Qed.
Lemma velocity_flags i a g j : velocity_update i a g = Some j -> n_sensors (s_nav j) = n_sensors (s_nav i).
Proof.
  rewrite /velocity_update. destruct (Req_EM_T _ _); [discriminate|]. move=> H. apply bind_some in H. destruct H as (w & _ & H). by injection H as <-.
Qed.
Lemma position_flags i j : position_update i = Some j -> n_sensors (s_nav j) = n_sensors (s_nav i).
Proof.
  rewrite /position_update => H. apply bind_some in H. destruct H as (ll & _ & H). apply bind_some in H. destruct H as (w2 & _ & H). by injection H as <-.
Qed.
Lemma forward_flags i x j : forward i x = Some j -> n_sensors (s_nav j) = n_sensors (s_nav i).
Proof.
  rewrite /forward => H. apply bind_some in H. destruct H as (t & M & H). injection H as <-. cbn [s_nav nav_time n_sensors].
  rewrite /mechanise in M. apply bind_some in M. destruct M as (a & A & M). apply bind_some in M. destruct M as (b & B & M).
  apply bind_some in M. destruct M as (c & C & M). injection M as <-. cbn [atti_update s_nav nav_turn n_sensors].
  by rewrite (position_flags _ _ C) (velocity_flags _ _ _ _ B) (extrapolate_flags _ _ A).
Qed.
Lemma feedback_flags i x j : feedback i x = Some j -> n_sensors (s_nav j) = n_sensors (s_nav i).
Proof.
  rewrite /feedback. destruct (rates_defined _); [|discriminate]. move=> H. apply bind_some in H. destruct H as (ll & _ & H). by injection H as <-.
Qed.
Lemma take_flags s : fl (take_estimate s) = fl s.
Proof. rewrite /take_estimate. by destruct (Z.ltb _ _). Qed.
Lemma feed_flags s t : feed s = Some t -> fl t = fl s.
Proof.
  rewrite /feed. destruct (Z.ltb _ _); [|by move=> [<-]]. move=> H. apply bind_some in H. destruct H as (i & F & H). injection H as <-.
  rewrite /fl. cbn. exact: feedback_flags F.
Qed.
Lemma propagate_flags s x t : propagate s x = Some t -> fl t = fl s.
Proof.
  rewrite /propagate => H. apply bind_some in H. destruct H as (sm & _ & H). apply bind_some in H. destruct H as (i & A & H).
  apply bind_some in H. destruct H as (phi & _ & H). injection H as <-. rewrite /fl. cbn. exact: forward_flags A.
Qed.
(** the other bits *)
Lemma zupt_other s t k : zupt_step s = Some t -> k <> 3%N -> Nat.testbit (fl t) k = Nat.testbit (fl s) k.
Proof.
  rewrite /zupt_step => H nk. have e : Nat.testbit SENSOR_ZUPT k = false.
    exact: (Nat.pow2_bits_false 3 k (not_eq_sym nk)).
  move: H. destruct (_ && _)%B; last by move=> [<-].
  destruct (is_static _).
  - move=> H. apply bind_some in H. destruct H as (u & A & H). injection H as <-. rewrite /fl. cbn [f_ins set_ins sensors_set ins_nav s_nav n_sensors nav_info].
    by rewrite lor_bit e orbF (zero_velocity_ins _ _ A).
  - move=> [<-]. rewrite /fl. cbn [f_ins set_ins sensors_clear ins_nav s_nav n_sensors nav_info]. by rewrite ldiff_bit e andbT.
Qed.
Lemma nhc_other s t k : nhc_step s = Some t -> k <> 4%N -> Nat.testbit (fl t) k = Nat.testbit (fl s) k.
Proof.
  rewrite /nhc_step => H nk. have e : Nat.testbit SENSOR_NHC k = false.
    exact: (Nat.pow2_bits_false 4 k (not_eq_sym nk)).
  move: H. match goal with |- context [if ?b then _ else _] => destruct b end.
  - move=> H. apply bind_some in H. destruct H as (u & A & H). injection H as <-. rewrite /fl. cbn [f_ins set_ins sensors_set ins_nav s_nav n_sensors nav_info].
    by rewrite lor_bit e orbF (measure_nhc_ins _ _ A).
  - move=> [<-]. rewrite /fl. cbn [f_ins set_ins sensors_clear ins_nav s_nav n_sensors nav_info]. by rewrite ldiff_bit e andbT.
Qed.
Lemma sample_keeps s x t k : time_update s x = Some t -> k <> 3%N -> k <> 4%N -> sensor t k = sensor s k.
Proof.
  rewrite /time_update => H n3 n4. apply bind_some in H. destruct H as (a & A & H). apply bind_some in H. destruct H as (b & B & H).
  apply bind_some in H. destruct H as (c & C & H). apply bind_some in H. destruct H as (d & D & H). injection H as <-.
  change (Nat.testbit (fl d) k = Nat.testbit (fl s) k).
  by rewrite (nhc_other _ _ _ D n4) (zupt_other _ _ _ C n3) (propagate_flags _ _ _ B) (feed_flags _ _ A) take_flags.
Qed.
Lemma samples_keep xs : forall s t k, run_calls s (List.map CallImu xs) = Some t -> k <> 3%N -> k <> 4%N -> sensor t k = sensor s k.
Proof.
  elim: xs => [|x xs IH] s t k /=; first by move=> [<-].
  move=> H n3 n4. apply bind_some in H. destruct H as (u & U & H). by rewrite (IH _ _ _ H n3 n4) (sample_keeps _ _ _ _ U n3 n4).
Qed.
Lemma fix_flag s g t : gnss_update s g = Some t -> sensor t 1 = gnss_check g /\
  n_gnss_mode (s_nav (f_ins t)) = if gnss_check g then Z.to_nat (g_mode g) else MODE_INVALID.
Proof.
  rewrite /gnss_update. case: ifP => C.
  - move=> H. apply bind_some in H. destruct H as (u & U & H). injection H as <-. rewrite /sensor. cbn [f_ins set_height].
    rewrite (measure_pos_ins _ _ _ _ U). cbn [f_ins set_ins mode_set sensors_set ins_nav s_nav n_sensors n_gnss_mode nav_info].
    split; first by rewrite lor_bit orbT.
    have : (g_mode g = 1 \/ g_mode g = 2 \/ g_mode g = 4 \/ g_mode g = 5)%Z.
      move: C. rewrite /gnss_check. case: (Z.eqb_spec (g_mode g) 1); case: (Z.eqb_spec (g_mode g) 2); case: (Z.eqb_spec (g_mode g) 4);
      case: (Z.eqb_spec (g_mode g) 5) => //=; tauto.
    by move=> [->|[->|[->|->]]].
  - move=> [<-]. rewrite /sensor. cbn [f_ins set_ins mode_set sensors_clear ins_nav s_nav n_sensors n_gnss_mode nav_info]. by rewrite ldiff_bit andbF.
Qed.
Lemma fix_keeps s g t k : gnss_update s g = Some t -> k <> 1%N -> sensor t k = sensor s k.
Proof.
  move=> H nk. have e : Nat.testbit SENSOR_GNSS k = false by exact: (Nat.pow2_bits_false 1 k (not_eq_sym nk)).
  move: H. rewrite /gnss_update. case: ifP => C.
  - move=> H. apply bind_some in H. destruct H as (u & U & H). injection H as <-. rewrite /sensor. cbn [f_ins set_height].
    rewrite (measure_pos_ins _ _ _ _ U). cbn [f_ins set_ins mode_set sensors_set ins_nav s_nav n_sensors n_gnss_mode nav_info].
    by rewrite lor_bit e orbF.
  - move=> [<-]. rewrite /sensor. cbn [f_ins set_ins mode_set sensors_clear ins_nav s_nav n_sensors n_gnss_mode nav_info]. by rewrite ldiff_bit e andbT.
Qed.
(** the flag of the last fix stays, whatever number of samples follows *)
Lemma fix_flag_stays s g xs t : run_calls s (CallGnss g :: List.map CallImu xs) = Some t -> sensor t 1 = gnss_check g.
Proof.
  cbn [run_calls do_call]. move=> H. apply bind_some in H. destruct H as (u & U & H).
  rewrite (samples_keep _ _ _ _ H) //. exact: (proj1 (fix_flag _ _ _ U)).
Qed.
(** the zero velocity flag of every eighth sample is that of the sample before *)
Lemma zupt_stale s x t : time_update s x = Some t -> (u32 (f_idx s + 1) mod 8 = 0)%Z -> sensor t 3 = sensor s 3.
Proof.
  rewrite /time_update => H E. apply bind_some in H. destruct H as (a & A & H). apply bind_some in H. destruct H as (b & B & H).
  apply bind_some in H. destruct H as (c & C & H). apply bind_some in H. destruct H as (d & D & H). injection H as <-.
  change (Nat.testbit (fl d) 3 = Nat.testbit (fl s) 3). rewrite (nhc_other _ _ _ D) //.
  have ib : f_idx b = u32 (f_idx s + 1).
    have ia : f_idx a = f_idx s.
      move: A. rewrite /feed. have e : f_idx (take_estimate s) = f_idx s by rewrite /take_estimate; destruct (Z.ltb _ _).
      destruct (Z.ltb _ _); last by move=> [<-]. move=> H. apply bind_some in H. destruct H as (i & F & H). by injection H as <-.
    move: B. rewrite /propagate => H. apply bind_some in H. destruct H as (sm & _ & H). apply bind_some in H. destruct H as (i & F & H).
    apply bind_some in H. destruct H as (phi & _ & H). injection H as <-. by rewrite -ia.
  have -> : c = b.
    move: C. rewrite /zupt_step ib E. by move=> [<-].
  by rewrite (propagate_flags _ _ _ B) (feed_flags _ _ A) take_flags.
Qed.
Lemma init_flags s n o t k : initialize s n o = Some t -> sensor t k = Nat.testbit (n_sensors n) k.
Proof. rewrite /initialize. match goal with |- context [if ?b then _ else _] => destruct b end; [discriminate|]. by move=> [<-]. Qed.
(** results with a given state never say that the IMU is used unless the given state says so *)
Lemma given_imu_flag s p o n t cs u : given_nav p o = Some n -> initialize s n o = Some t ->
  List.Forall (fun c => match c with CallImu _ | CallGnss _ => True | _ => False end) cs -> run_calls t cs = Some u ->
  sensor u 0 = Nat.testbit (p_sensors p) 0.
Proof.
  move=> G I. have e : sensor t 0 = Nat.testbit (p_sensors p) 0.
    rewrite (init_flags _ _ _ _ _ I). move: G. rewrite /given_nav. case: (p_atti p) => [a|] //. by move=> [<-].
  rewrite -e. clear G I e. elim: cs t => [|c cs IH] t /=; first by move=> _ [<-].
  move=> F H. inversion F; subst. apply bind_some in H. destruct H as (v & V & H). rewrite (IH _ H3 H).
  case: c V H2 {F} => //= [x|g] V _.
  - exact: (sample_keeps _ _ _ _ V).
  - exact: (fix_keeps _ _ _ _ V).
Qed.

(** wheel speed and barometer *)
Lemma lor_other a b k : k <> b -> Nat.testbit (Nat.lor a (Nat.pow 2 b)) k = Nat.testbit a k.
Proof. move=> nk. by rewrite lor_bit (Nat.pow2_bits_false b k (not_eq_sym nk)) orbF. Qed.
Lemma ldiff_other a b k : k <> b -> Nat.testbit (Nat.ldiff a (Nat.pow 2 b)) k = Nat.testbit a k.
Proof. move=> nk. by rewrite ldiff_bit (Nat.pow2_bits_false b k (not_eq_sym nk)) andbT. Qed.
Lemma vel_keeps s v t k : velocity_update_f s v = Some t -> k <> 2%N -> k <> 4%N -> sensor t k = sensor s k.
Proof.
  rewrite /velocity_update_f. case: (o_nhc _) => H n2 n4; apply bind_some in H; destruct H as (u & U & H); injection H as <-.
  - transitivity (Nat.testbit (Nat.lor (Nat.lor (fl s) (Nat.pow 2 2)) (Nat.pow 2 4)) k); first by [].
    by rewrite (lor_other _ 4) // (lor_other _ 2).
  - transitivity (Nat.testbit (Nat.ldiff (Nat.lor (fl s) (Nat.pow 2 2)) (Nat.pow 2 4)) k); first by [].
    by rewrite (ldiff_other _ 4) // (lor_other _ 2).
Qed.
Lemma vel_sets s v t : velocity_update_f s v = Some t -> sensor t 2 = true.
Proof.
  rewrite /velocity_update_f. case: (o_nhc _) => H; apply bind_some in H; destruct H as (u & U & H); injection H as <-.
  - transitivity (Nat.testbit (Nat.lor (Nat.lor (fl s) (Nat.pow 2 2)) (Nat.pow 2 4)) 2); first by [].
    by rewrite (lor_other _ 4) // lor_bit orbT.
  - transitivity (Nat.testbit (Nat.ldiff (Nat.lor (fl s) (Nat.pow 2 2)) (Nat.pow 2 4)) 2); first by [].
    by rewrite (ldiff_other _ 4) // lor_bit orbT.
Qed.
Lemma height_keeps s h t k : height_update s h = Some t -> k <> 7%N -> sensor t k = sensor s k.
Proof.
  rewrite /height_update. cbv zeta. case: (Z.ltb 4 _) => H nk; apply bind_some in H; destruct H as (u & U & H); move: H;
    (match goal with |- context [if ?b then _ else _] => destruct b end; first discriminate); move=> [<-].
  - apply bind_some in U. destruct U as (k' & _ & U). injection U as <-.
    transitivity (Nat.testbit (Nat.lor (fl s) (Nat.pow 2 7)) k); first by []. by rewrite (lor_other _ 7).
  - injection U as <-. transitivity (Nat.testbit (Nat.ldiff (fl s) (Nat.pow 2 7)) k); first by []. by rewrite (ldiff_other _ 7).
Qed.
Lemma gnss_flag cs : forall s t d, run_calls s cs = Some t -> (forall g, d = Some g -> sensor s 1 = gnss_check g) ->
  forall g, last_fix cs d = Some g -> sensor t 1 = gnss_check g.
Proof.
  elim: cs => [|c cs IH] s t d; first by move=> [<-].
  cbn [run_calls]. move=> H D g L. apply bind_some in H. destruct H as (u & U & H).
  case: c U L => [x|f|v|h] U L; (eapply (IH u); [exact: H| |exact: L]) => g' e.
  - rewrite (sample_keeps _ _ _ 1 U) //. exact: D.
  - injection e as <-. exact: (proj1 (fix_flag _ _ _ U)).
  - rewrite (vel_keeps _ _ _ 1 U) //. exact: D.
  - rewrite (height_keeps _ _ _ 1 U) //. exact: D.
Qed.
Lemma gnss_flag_none cs : forall s t, run_calls s cs = Some t -> last_fix cs None = None -> sensor t 1 = sensor s 1.
Proof.
  have mono : forall cs g, last_fix cs (Some g) <> None.
    by elim=> [|c r IH] g //=; case: c => [x|f|v|h] /=; apply: IH.
  elim: cs => [|c cs IH] s t; first by move=> [<-].
  cbn [run_calls]. move=> H L. apply bind_some in H. destruct H as (u & U & H).
  case: c U L => [x|f|v|h] U L.
  - by rewrite (IH _ _ H L) (sample_keeps _ _ _ 1 U).
  - by case: (mono _ _ L).
  - by rewrite (IH _ _ H L) (vel_keeps _ _ _ 1 U).
  - by rewrite (IH _ _ H L) (height_keeps _ _ _ 1 U).
Qed.
(** once a wheel speed was used its flag stays *)
Lemma odo_flag cs : forall s t, run_calls s cs = Some t ->
  sensor t 2 = (sensor s 2 || has_speed cs).
Proof.
  elim: cs => [|c cs IH] s t; first by move=> [<-] /=; rewrite orbF.
  rewrite /has_speed. cbn [run_calls List.existsb]. rewrite -/(has_speed cs). move=> H. apply bind_some in H. destruct H as (u & U & H). rewrite (IH _ _ H).
  case: c U => [x|f|v|h] U /=.
  - by rewrite (sample_keeps _ _ _ 2 U).
  - by rewrite (fix_keeps _ _ _ 2 U).
  - by rewrite (vel_sets _ _ _ U) !orbT.
  - by rewrite (height_keeps _ _ _ 2 U).
Qed.
(** nothing sets the bit of the IMU *)
Lemma imu_flag cs : forall s t, run_calls s cs = Some t -> sensor t 0 = sensor s 0.
Proof.
  elim: cs => [|c cs IH] s t; first by move=> [<-].
  cbn [run_calls]. move=> H. apply bind_some in H. destruct H as (u & U & H). rewrite (IH _ _ H).
  case: c U => [x|f|v|h] U /=.
  - exact: (sample_keeps _ _ _ 0 U).
  - exact: (fix_keeps _ _ _ 0 U).
  - exact: (vel_keeps _ _ _ 0 U).
  - exact: (height_keeps _ _ _ 0 U).
Qed.
Lemma given_flag s p o n t cs u : given_nav p o = Some n -> initialize s n o = Some t -> run_calls t cs = Some u ->
  sensor u 0 = Nat.testbit (p_sensors p) 0.
Proof.
  move=> G I Q. rewrite (imu_flag _ _ _ Q) (init_flags _ _ _ _ _ I). move: G. rewrite /given_nav. case: (p_atti p) => [a|] //. by move=> [<-].
Qed.
(** a history with an accepted fix, samples behind it *)
Lemma stale_case t : exists u, run_calls (case_start 1 false (V 1 1 1)) [:: CallGnss (case_fix 100); CallImu (case_sample 50 t)] = Some u /\
  sensor u 1 = true.
Proof.
  have [u [E _]] := case_above t. exists u. split=> //. exact: (fix_flag_stays _ (case_fix 100) [:: case_sample 50 t] _ E).
Qed.
