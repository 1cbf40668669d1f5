(** The post-processing program: C80 to C83. Model: PostModel on top of MergeModel (data manager), OutageModel and ApiModel (the
    library). Specification: PostSpec. [ran ... ss d0 t]: the program took the samples [ss] from the files, initialised the device to
    [d0] and ended in [t]; [t_lines t] is what it handed to the result writer (C42 says what becomes of it). *)
From Coq Require Import QArith Reals ZArith List Bool Lia Lra.
From Verif Require Import RealMath MergeModel MergeSpec OutageModel OutageSpec SmoothModel FusionBase InsModel KalmanModel FusionModel AlignModel
  ApiModel ApiSpec ApiProofs ApiFresh ApiCases ApiPosStd ApiRest FusionCases PostModel PostSpec PostProofs PostTime PostEnd PostMain.
Import ListNotations.
Local Open Scope R_scope.

(** a case: three IMU samples and a fix, the unit starts from a given state *)
Definition case_imu (k : nat) : sample :=
  {| s_type := DATA_TYPE_IMU; s_time := inject_Z (Z.of_nat k); s_gpst := inject_Z (Z.of_nat k); s_tag := k |}.
Definition case_fix (k : nat) : sample :=
  {| s_type := DATA_TYPE_GNSS; s_time := inject_Z (Z.of_nat k); s_gpst := inject_Z (Z.of_nat k); s_tag := k |}.
Definition case_config (e : bool) : post_config :=
  PC e {| o_starts := [3%Q]; o_length := 1; o_enable := true |} (fun s => case_sample 0 (INR (s_tag s))) (fun _ => Gnss 0 0 0 (V 1 1 1) 0 1).
Definition case_files : manager := built true [case_imu 1; case_imu 2; case_imu 3; case_imu 5] [case_fix 2; case_fix 3; case_fix 4].
Definition case_taken : list sample := [case_imu 2; case_fix 2; case_imu 3; case_fix 3; case_fix 4].
Lemma case_ran e mem p0 : exists d0 t, ran (case_config e) 9 1%Q case_files mem given_junk p0 given_ao pva_zero case_taken d0 t.
Proof.
  assert (exists m1 m2, move_to_time 9 1%Q case_files = Some (Done m1) /\ take 9 m1 = Done (case_taken, true, m2)) as T.
  { do 2 eexists. split; vm_compute; reflexivity. }
  destruct (program_ends (case_config e) true [case_imu 1; case_imu 2; case_imu 3; case_imu 5] [case_fix 2; case_fix 3; case_fix 4] 1%Q mem given_junk p0 given_ao pva_zero 9) as (t & E).
  - intros i Hi. destruct i as [|[|i]]; [| |lia]; cbn [streams]; split; repeat constructor; unfold Qle; cbn; lia.
  - simpl; lia.
  - vm_compute; discriminate.
  - destruct (main_run _ _ _ _ _ _ _ _ _ _ E) as (ss & d0 & R0). exists d0, t. destruct R0 as ((m1 & m2 & A & B) & I & M).
    destruct T as (m3 & m4 & C & D). split; [|split; [exact I|exact M]]. eauto.
Qed.

(** ** C80 *)
Theorem C80_ends : forall c (g : bool) imu gnss start mem j p0 opt init n,
  MergeSpec.usable (if g then 2 else 1)%nat (streams imu gnss) -> (length imu + length gnss < n)%nat ->
  (Z.of_nat (length imu + length gnss) <= int_max)%Z ->
  exists t, post_main c n start (built g imu gnss) mem j p0 opt init = Some (Done (Some t)).
Proof. exact program_ends. Qed.
Theorem C80_samples_taken : forall c n start m mem j p0 opt init t, post_main c n start m mem j p0 opt init = Some (Done (Some t)) ->
  exists ss d0, ran c n start m mem j p0 opt init ss d0 t.
Proof. exact main_run. Qed.
Theorem C80_one_line_per_sample : forall c n start m mem j p0 opt init ss d0 t, ran c n start m mem j p0 opt init ss d0 t ->
  length (t_lines t) = length ss.
Proof. exact lines_length. Qed.
(** line k is what rgioe_get_result answers after the first k+1 samples *)
Theorem C80_line_is_the_answer : forall c n start m mem j p0 opt init ss d0 t k, ran c n start m mem j p0 opt init ss d0 t -> (k < length ss)%nat ->
  exists d l r, api_run d0 (calls_of c (firstn (S k) ss)) = Some (d, l) /\ nth_error (t_lines t) k = Some r /\
    (d_status d = RGIOE_STATUS_NAVIGATION -> forall b, api_do d (AResult b) = Some (d, RPva r)).
Proof. exact line_navigation. Qed.
Print Assumptions C80_ends.
Print Assumptions C80_samples_taken.
Print Assumptions C80_one_line_per_sample.
Print Assumptions C80_line_is_the_answer.
Example C80_case : forall e mem p0, exists d0 t, ran (case_config e) 9 1%Q case_files mem given_junk p0 given_ao pva_zero case_taken d0 t /\
  length (t_lines t) = 5%nat.
Proof. intros e mem p0. destruct (case_ran e mem p0) as (d0 & t & R0). exists d0, t. split; [exact R0|]. exact (lines_length _ _ _ _ _ _ _ _ _ _ _ _ R0). Qed.

(** ** C81 *)
(** device and lines are those of a run without outages over the samples outside the windows *)
Theorem C81_fixes_in_windows_ignored : forall c n start m mem j p0 opt init ss d0 t, ran c n start m mem j p0 opt init ss d0 t ->
  exists u, post_run (no_outage c) (Post d0 (Some p0) []) (filter (kept c) ss) = Some u /\ t_dev u = t_dev t /\
    t_lines u = kept_lines c ss (t_lines t).
Proof. exact outage_program. Qed.
Theorem C81_windows : forall c start stop len step fuel s, valid_plan start stop len step -> (0 < step)%Q ->
  new_outage fuel start stop len step = Some (pc_outage c) -> pc_outage_enable c = true ->
  (kept c s = false <-> s_type s = DATA_TYPE_GNSS /\ in_window start stop len step (s_time s)).
Proof. exact kept_window. Qed.
Theorem C81_disabled : forall c s, pc_outage_enable c = false -> kept c s = true.
Proof. exact kept_disabled. Qed.
Theorem C81_line_repeated : forall c n start m mem j p0 opt init ss d0 t k s, ran c n start m mem j p0 opt init ss d0 t ->
  nth_error ss (S k) = Some s -> kept c s = false -> nth_error (t_lines t) (S k) = nth_error (t_lines t) k.
Proof. exact outage_repeats. Qed.
Print Assumptions C81_fixes_in_windows_ignored.
Print Assumptions C81_windows.
Print Assumptions C81_disabled.
Print Assumptions C81_line_repeated.
Example C81_case : new_outage 3 3 4 1 2 = Some (pc_outage (case_config true)) /\ valid_plan 3 4 1 2 /\
  filter (kept (case_config true)) case_taken = [case_imu 2; case_fix 2; case_imu 3].
Proof.
  split; [reflexivity|]. split; [|reflexivity]. repeat split; [intros [H _]; now compute in H| |]; unfold Qle; cbn; lia.
Qed.

(** ** C82: refuted. The variable [result] of the program is not initialised and rgioe_get_result leaves place and velocity
    alone before NAVIGATION, so the first lines contain what happens to be on the stack ([p0]) *)
Theorem C82_memory_refuted : forall c n start m mem j p0 opt init ss d0 t, ran c n start m mem j p0 opt init ss d0 t -> ss <> [] ->
  o_align_mode (ao_rest opt) <> ALIGN_USE_GIVEN ->
  exists q, nth_error (t_lines t) 0 = Some (Some q) /\ p_lat q = p_lat p0 /\ p_lon q = p_lon p0 /\ p_height q = p_height p0 /\ p_vn q = p_vn p0.
Proof. exact first_line. Qed.
Theorem C82_memory_before_navigation_refuted : forall c n start m mem j p0 opt init ss d0 t k d l, ran c n start m mem j p0 opt init ss d0 t ->
  (k < length ss)%nat -> api_run d0 (calls_of c (firstn (S k) ss)) = Some (d, l) -> d_status d <> RGIOE_STATUS_NAVIGATION ->
  exists q, nth_error (t_lines t) k = Some (Some q) /\ p_lat q = p_lat p0 /\ p_lon q = p_lon p0 /\ p_height q = p_height p0 /\ p_vn q = p_vn p0.
Proof. exact line_before. Qed.
(** what holds: with a given state, from the first IMU sample on *)
Theorem C82_given_state_partial : forall c n start m opt init ss mem1 j1 p1 d1 t1 mem2 j2 p2 d2 t2 k,
  ran c n start m mem1 j1 p1 opt init ss d1 t1 -> ran c n start m mem2 j2 p2 opt init ss d2 t2 ->
  o_align_mode (ao_rest opt) = ALIGN_USE_GIVEN ->
  (exists i s, (i <= k)%nat /\ nth_error ss i = Some s /\ s_type s = DATA_TYPE_IMU) -> (k < length ss)%nat ->
  nth_error (t_lines t1) k = nth_error (t_lines t2) k.
Proof. exact given_lines. Qed.
Print Assumptions C82_memory_refuted.
Print Assumptions C82_memory_before_navigation_refuted.
Print Assumptions C82_given_state_partial.
Example C82_case : forall mem p0, exists d0 t, ran (case_config false) 9 1%Q case_files mem given_junk p0 (AOpt true (case_opt 0 false)) pva_zero case_taken d0 t /\
  o_align_mode (case_opt 0 false) <> ALIGN_USE_GIVEN.
Proof.
  intros mem p0. assert (exists m1 m2, move_to_time 9 1%Q case_files = Some (Done m1) /\ take 9 m1 = Done (case_taken, true, m2)) as T.
  { do 2 eexists. split; vm_compute; reflexivity. }
  destruct (program_ends (case_config false) true [case_imu 1; case_imu 2; case_imu 3; case_imu 5] [case_fix 2; case_fix 3; case_fix 4] 1%Q mem given_junk p0
     (AOpt true (case_opt 0 false)) pva_zero 9) as (t & E).
  - intros i Hi. destruct i as [|[|i]]; [| |lia]; cbn [streams]; split; repeat constructor; unfold Qle; cbn; lia.
  - simpl; lia.
  - vm_compute; discriminate.
  - destruct (main_run _ _ _ _ _ _ _ _ _ _ E) as (ss & d0 & R0). exists d0, t. destruct R0 as ((m1 & m2 & A & B) & I & M).
    destruct T as (m3 & m4 & C & D). split; [|discriminate]. split; [|split; [exact I|exact M]]. eauto.
Qed.
Example C82_given_case : forall mem p0, exists d0 t, ran (case_config false) 9 1%Q case_files mem given_junk p0 given_ao pva_zero case_taken d0 t /\
  o_align_mode (ao_rest given_ao) = ALIGN_USE_GIVEN /\
  exists i s, (i <= 0)%nat /\ nth_error case_taken i = Some s /\ s_type s = DATA_TYPE_IMU.
Proof.
  intros mem p0. destruct (case_ran false mem p0) as (d0 & t & R0). exists d0, t. split; [exact R0|]. split; [reflexivity|].
  exists 0%nat, (case_imu 2). repeat split; auto.
Qed.

(** ** C83 *)
Theorem C83_time_of_last_sample : forall c n start m mem j p0 opt init ss d0 t k d l p, ran c n start m mem j p0 opt init ss d0 t ->
  (k < length ss)%nat -> api_run d0 (calls_of c (firstn (S k) ss)) = Some (d, l) -> d_status d = RGIOE_STATUS_NAVIGATION ->
  nth_error (t_lines t) k = Some (Some p) ->
  exists i s, (i <= k)%nat /\ nth_error ss i = Some s /\ s_type s = DATA_TYPE_IMU /\ p_gpst p = i_gpst (pc_imu_of c s) /\
    (forall i' s', (i < i' <= k)%nat -> nth_error ss i' = Some s' -> s_type s' <> DATA_TYPE_IMU).
Proof. exact line_time. Qed.
Theorem C83_times_never_go_back : forall c n start m mem j p0 opt init ss d0 t k1 k2 e1 l1 e2 l2 a b, ran c n start m mem j p0 opt init ss d0 t ->
  imu_ordered c ss -> (k1 < k2 < length ss)%nat ->
  api_run d0 (calls_of c (firstn (S k1) ss)) = Some (e1, l1) -> d_status e1 = RGIOE_STATUS_NAVIGATION -> nth_error (t_lines t) k1 = Some (Some a) ->
  api_run d0 (calls_of c (firstn (S k2) ss)) = Some (e2, l2) -> d_status e2 = RGIOE_STATUS_NAVIGATION -> nth_error (t_lines t) k2 = Some (Some b) ->
  p_gpst a <= p_gpst b.
Proof. exact times_ordered. Qed.
Print Assumptions C83_time_of_last_sample.
Print Assumptions C83_times_never_go_back.
(** the first two lines of the case are results in NAVIGATION *)
Example C83_case : forall mem p0, exists d0 t d1 l1 d2 l2, ran (case_config true) 9 1%Q case_files mem given_junk p0 given_ao pva_zero case_taken d0 t /\
  imu_ordered (case_config true) case_taken /\
  api_run d0 (calls_of (case_config true) (firstn 1 case_taken)) = Some (d1, l1) /\ d_status d1 = RGIOE_STATUS_NAVIGATION /\
  (exists p, nth_error (t_lines t) 0 = Some (Some p) /\ p_gpst p = 2) /\
  api_run d0 (calls_of (case_config true) (firstn 2 case_taken)) = Some (d2, l2) /\ d_status d2 = RGIOE_STATUS_NAVIGATION.
Proof.
  intros mem p0. destruct (case_ran true mem p0) as (d0 & t & R0).
  assert (Rr := R0). destruct Rr as (_ & I & _). destruct (init_ok _ _ _ _ _ I) as (S0 & O0 & _).
  destruct (given_first_sample mem (INR 2)) as (e0 & e1 & u & A & B & C). rewrite I in A. injection A as <-.
  destruct (run_at _ _ _ _ _ _ _ _ _ _ _ _ 0%nat R0) as (d1 & l1 & r1 & q1 & A1 & B1 & _ & C1 & _); [simpl; lia|].
  destruct (run_at _ _ _ _ _ _ _ _ _ _ _ _ 1%nat R0) as (d2 & l2 & r2 & q2 & A2 & B2 & _ & C2 & _); [simpl; lia|].
  assert (N1 : d_status d1 = RGIOE_STATUS_NAVIGATION).
  { eapply given_navigation; [apply calls_quiet|exact A1|discriminate|now left|now rewrite O0]. }
  assert (N2 : d_status d2 = RGIOE_STATUS_NAVIGATION).
  { eapply given_navigation; [apply calls_quiet|exact A2|discriminate|now left|now rewrite O0]. }
  exists d0, t, d1, l1, d2, l2. split; [exact R0|]. split.
  { intros a b x y L X Y Tx Ty. destruct a as [|[|[|[|[|a]]]]]; try discriminate X; try (injection X as <-; discriminate Tx);
    destruct b as [|[|[|[|[|b]]]]]; try lia; try discriminate Y; try (injection Y as <-; discriminate Ty);
    try (destruct a; discriminate X); try (destruct b; discriminate Y); injection X as <-; injection Y as <-; simpl; lra. }
  split; [exact A1|]. split; [exact N1|]. split; [|split; [exact A2|exact N2]].
  change (calls_of (case_config true) (firstn 1 case_taken)) with [ATime (Some (case_sample 0 (INR 2)))] in A1.
  cbn [api_run] in A1. rewrite B in A1. injection A1 as <- <-.
  assert (forall b, exists q s, api_do e1 (AResult b) = Some (e1, RPva (Some q)) /\ p_pos_std q = Some s) as Zz.
  { intros b. destruct (get_pos_zero mem given_junk given_ao pva_zero d0 (case_sample 0 (INR 2)) e1 (RCode RGIOE_OK) u I eq_refl (conj eq_refl (or_introl eq_refl)) eq_refl eq_refl eq_refl eq_refl) as (_ & Z1);
    [simpl; lra|simpl; lra|simpl; lra|exact B|exact C|]. destruct (Z1 b) as (q & s & X & Y & _). eauto. }
  destruct (Zz p0) as (p & ? & Zp & _). rewrite (C1 N1 p0) in Zp. injection Zp as ->.
  exists p. split; [exact B1|].
  destruct (line_time _ _ _ _ _ _ _ _ _ _ _ _ 0%nat e1 [RCode RGIOE_OK] p R0) as (i & s & Li & Ns & _ & -> & _); [simpl; lia| |exact N1|exact B1|].
  - change (calls_of (case_config true) (firstn 1 case_taken)) with [ATime (Some (case_sample 0 (INR 2)))]. cbn [api_run]. now rewrite B.
  - assert (i = 0%nat) as -> by lia. injection Ns as <-. simpl. lra.
Qed.
