(** The second post-processing program that is built, PostDataFusion_old: C120 to C124. Model: OldModel on top of MergeModel, OutageModel
    and ApiModel. Specification: OldSpec. [old_ran ... ss d0 t]: the program took the samples [ss] from the files, initialised the
    device to [d0] and ended in [t]; [u_lines t] is what it handed to the result writer. *)
From Coq Require Import QArith Qabs Reals ZArith List Bool Lia Lra.
From Verif Require Import RealMath MergeModel MergeSpec OutageModel OutageSpec SmoothModel FusionBase InsModel KalmanModel FusionModel AlignModel
  ApiModel ApiSpec ApiProofs ApiCases ApiPosStd ApiRest FusionCases PostModel PostSpec PostMain OldModel OldSpec OldProofs OldMain.
Import QArith ListNotations.

(** a case: IMU samples at 1, 2, 3 and 5 seconds, configured rate 1 per second, a fix at [f] seconds, an outage from 2 to 3 seconds *)
Definition old_imu (k : nat) : sample :=
  {| s_type := DATA_TYPE_IMU; s_time := inject_Z (Z.of_nat k); s_gpst := inject_Z (Z.of_nat k); s_tag := k |}.
Definition old_fix_at (f : Q) : sample := {| s_type := DATA_TYPE_GNSS; s_time := f; s_gpst := f; s_tag := 0 |}.
Definition old_config (e : bool) : post_config :=
  PC e {| o_starts := [2%Q]; o_length := 1; o_enable := true |} (fun s => case_sample 0 (INR (s_tag s))) (fun _ => Gnss 0 0 0 (V 1 1 1) 0 1).
Definition old_files (f : Q) : manager := built true [old_imu 1; old_imu 2; old_imu 3; old_imu 5] [old_fix_at f; old_fix_at 7].
Definition old_taken (f : Q) : list sample := [old_imu 2; old_fix_at f; old_imu 3; old_imu 5].
Lemma old_case e mem p0 f : f = 5 # 2 \/ f = 9 # 4 -> exists d0 t, old_ran (old_config e) 1 9 1%Q (old_files f) mem given_junk p0 given_ao pva_zero (old_taken f) d0 t.
Proof.
  intros Hf. destruct (old_ends (old_config e) 1 true [old_imu 1; old_imu 2; old_imu 3; old_imu 5] [old_fix_at f; old_fix_at 7] 1%Q mem given_junk p0 given_ao pva_zero 9)
    as (m1 & ss & m2 & r & A & B & M & U).
  - intros i Hi. destruct Hf as [-> | ->]; (destruct i as [|[|i]]; [| |lia]; cbn [streams]; split; repeat constructor; unfold Qle; cbn; lia).
  - simpl; lia.
  - vm_compute; discriminate.
  - assert (T : exists m3 m4, move_to_time 9 1%Q (old_files f) = Some (Done m3) /\ take 9 m3 = Done (old_taken f, true, m4)).
    { destruct Hf as [-> | ->]; (do 2 eexists; split; vm_compute; reflexivity). }
    destruct T as (m3 & m4 & C & D). fold (old_files f) in A, M. assert (m3 = m1) by congruence. subst m3. assert (ss = old_taken f) by congruence. subst ss.
    destruct r as [t|].
    + destruct (old_main_run _ _ _ _ _ _ _ _ _ _ _ M) as (ss & d0 & ((m5 & m6 & P & Q) & I & W)). exists d0, t. split; [eauto|]. auto.
    + exfalso. destruct (proj1 U eq_refl) as (s & r & E & S). injection E as <- <-. discriminate.
Qed.

(** ** C120: refuted. How often the library is handed a fix: once for every IMU sample within six tenths of a sampling interval,
    counted from the last sample in front of it to the last one before the next fix *)
Theorem C120_uses_of_a_fix_partial : forall c rate n start m mem j p0 opt init ss d0 t a i g b rest,
  old_ran c rate n start m mem j p0 opt init ss d0 t -> ss = a ++ g :: b ++ rest ->
  last_imu a = Some i -> s_type g = DATA_TYPE_GNSS -> Forall (fun s => s_type s = DATA_TYPE_IMU) b ->
  exists before after during l near, api_run d0 (before ++ during ++ after) = Some (u_dev t, l) /\
    before = old_calls c rate a /\ hand_overs during = repeat (pc_fix_of c g) (length near) /\
    imus during = map (pc_imu_of c) b /\
    (forall s, In s near <-> In s (i :: b) /\ (rate = 0%Z \/ (Qabs (s_time g - s_time s) < (3 # 5) / inject_Z rate)%Q)).
Proof.
  intros c rate n start m mem j p0 opt init ss d0 t a i g b rest R0 E HI HG HB.
  destruct (old_lines _ _ _ _ _ _ _ _ _ _ _ _ _ R0) as (devs & _ & (l & R) & _).
  assert (Eg : is_imu g = false) by (unfold is_imu; now rewrite HG).
  assert (Eb : forallb is_imu b = true).
  { apply forallb_forall. intros s Hs. rewrite Forall_forall in HB. unfold is_imu. now rewrite (HB s Hs). }
  exists (old_calls c rate a), (calls_after c rate (a ++ g :: b) rest), (calls_after c rate a (g :: b)), l, (filter (old_near rate g) (i :: b)).
  split; [|split; [reflexivity|split; [apply overs_fix; assumption|split]]].
  - rewrite E in R. unfold old_calls in *. change (g :: b ++ rest) with ((g :: b) ++ rest) in R. rewrite calls_after_app in R.
    rewrite calls_after_app in R. exact R.
  - rewrite imus_old. cbn [filter]. rewrite Eg. f_equal. clear -Eb. induction b as [|s b IH]; [reflexivity|]. cbn [forallb] in Eb.
    apply andb_true_iff in Eb. destruct Eb as [A B]. cbn [filter]. rewrite A, IH; auto.
  - intros s. rewrite filter_In, near_close. reflexivity.
Qed.
Print Assumptions C120_uses_of_a_fix_partial.
(** at the configured rate a fix in the middle fifth of an interval is used twice *)
Theorem C120_used_twice_refuted : forall c rate i g k b, (0 < rate)%Z ->
  s_type g = DATA_TYPE_GNSS -> Forall (fun s => s_type s = DATA_TYPE_IMU) (k :: b) ->
  (s_time k == s_time i + 1 / inject_Z rate)%Q ->
  (s_time i + (2 # 5) / inject_Z rate < s_time g)%Q -> (s_time g < s_time i + (3 # 5) / inject_Z rate)%Q ->
  forall a, last_imu a = Some i -> exists x, hand_overs (calls_after c rate a (g :: k :: b)) = pc_fix_of c g :: pc_fix_of c g :: x.
Proof.
  intros c rate i g k b R HG HB K A B a HI. destruct (both_close rate i g k R K A B) as [C1 C2]. apply near_close in C1, C2.
  rewrite (overs_fix c rate a i); auto.
  - cbn [filter]. rewrite C1, C2. eexists. reflexivity.
  - unfold is_imu. now rewrite HG.
  - apply forallb_forall. intros s Hs. rewrite Forall_forall in HB. unfold is_imu. now rewrite (HB s Hs).
Qed.
Print Assumptions C120_used_twice_refuted.
(** with samples in front of it and behind it that are not too far apart a fix is used at least once *)
Theorem C120_used_partial : forall c rate i g k b, (0 < rate)%Z ->
  s_type g = DATA_TYPE_GNSS -> Forall (fun s => s_type s = DATA_TYPE_IMU) (k :: b) ->
  (s_time k - s_time i < (6 # 5) / inject_Z rate)%Q -> (s_time i <= s_time g)%Q -> (s_time g <= s_time k)%Q ->
  forall a, last_imu a = Some i -> exists x, hand_overs (calls_after c rate a (g :: k :: b)) = pc_fix_of c g :: x.
Proof.
  intros c rate i g k b R HG HB K A B a HI. assert (C := one_close rate i g k R K A B).
  rewrite (overs_fix c rate a i); auto.
  - cbn [filter]. destruct C as [C|C]; apply near_close in C; rewrite C.
    + eexists. reflexivity.
    + destruct (old_near rate g i); eexists; reflexivity.
  - unfold is_imu. now rewrite HG.
  - apply forallb_forall. intros s Hs. rewrite Forall_forall in HB. unfold is_imu. now rewrite (HB s Hs).
Qed.
Print Assumptions C120_used_partial.
(** the case: the only fix that is read is handed over twice *)
Example C120_case : forall mem p0, exists d0 t,
  old_ran (old_config false) 1 9 1%Q (old_files (5 # 2)) mem given_junk p0 given_ao pva_zero (old_taken (5 # 2)) d0 t /\
  hand_overs (old_calls (old_config false) 1 (old_taken (5 # 2))) = [Gnss 0 0 0 (V 1 1 1) 0 1; Gnss 0 0 0 (V 1 1 1) 0 1] /\
  last_imu [old_imu 2] = Some (old_imu 2).
Proof.
  intros mem p0. destruct (old_case false mem p0 (5 # 2) (or_introl eq_refl)) as (d0 & t & R0). exists d0, t. split; [exact R0|]. split; reflexivity.
Qed.

(** ** C121: refuted. Simulated outages change nothing, whatever the plan *)
Theorem C121_outages_ignored_refuted : forall c o e rate n start m mem j p0 opt init,
  old_main c rate n start m mem j p0 opt init = old_main (PC e o (pc_imu_of c) (pc_fix_of c)) rate n start m mem j p0 opt init.
Proof.
  intros. unfold old_main. destruct (move_to_time n start m) as [[m1|]|]; try reflexivity. destruct (take n m1) as [[[ss []] m2]|]; try reflexivity.
  destruct (api_init mem j (Some opt) (Some init)) as [[d r]|]; [|reflexivity]. f_equal. f_equal.
  generalize (Old d (Some p0) None None []). induction ss as [|s ss IH]; intros t; [reflexivity|]. cbn [old_run].
  replace (old_step (PC e o (pc_imu_of c) (pc_fix_of c)) rate t s) with (old_step c rate t s) by reflexivity.
  destruct (old_step c rate t s); [apply IH|reflexivity].
Qed.
Print Assumptions C121_outages_ignored_refuted.
(** the case: the fix lies in the window of an enabled plan and reaches the filter, the first program holds it back *)
Theorem C121_fix_in_outage_refuted : exists c rate ss, pc_outage_enable c = true /\
  (forall s, In s ss -> s_type s = DATA_TYPE_GNSS -> is_outage (pc_outage c) (s_time s) = true) /\
  hand_overs (calls_of c ss) = [] /\ hand_overs (old_calls c rate ss) <> [] /\
  forall mem p0, exists d0 t, old_ran c rate 9 1%Q (old_files (5 # 2)) mem given_junk p0 given_ao pva_zero ss d0 t.
Proof.
  exists (old_config true), 1%Z, (old_taken (5 # 2)). split; [reflexivity|]. split.
  - intros s [<-|[<-|[<-|[<-|[]]]]] T; try discriminate. vm_compute. reflexivity.
  - split; [vm_compute; reflexivity|]. split; [discriminate|]. intros mem p0. exact (old_case true mem p0 (5 # 2) (or_introl eq_refl)).
Qed.
Print Assumptions C121_fix_in_outage_refuted.

(** ** C122: the program ends for all usable files; refuted: it is undefined (a null pointer is dereferenced) exactly if the first
    record is a fix *)
Theorem C122_first_record_refuted : forall c rate (g : bool) imu gnss start mem j p0 opt init n,
  MergeSpec.usable (if g then 2 else 1)%nat (streams imu gnss) -> (length imu + length gnss < n)%nat ->
  (Z.of_nat (length imu + length gnss) <= int_max)%Z ->
  exists m1 ss m2 r, move_to_time n start (built g imu gnss) = Some (Done m1) /\ take n m1 = Done (ss, true, m2) /\
    old_main c rate n start (built g imu gnss) mem j p0 opt init = Some (Done r) /\
    (r = None <-> exists s rest, ss = s :: rest /\ s_type s = DATA_TYPE_GNSS).
Proof. exact old_ends. Qed.
Print Assumptions C122_first_record_refuted.
(** the case: a fix half a second in front of the first IMU sample *)
Example C122_case : forall mem p0, old_main (old_config false) 1 9 1%Q (built true [old_imu 3; old_imu 4; old_imu 5] [old_fix_at 2; old_fix_at (5 # 2); old_fix_at 7]) mem given_junk p0 given_ao pva_zero
  = Some (Done None).
Proof.
  intros mem p0. destruct (old_ends (old_config false) 1 true [old_imu 3; old_imu 4; old_imu 5] [old_fix_at 2; old_fix_at (5 # 2); old_fix_at 7] 1%Q mem given_junk p0 given_ao pva_zero 9)
    as (m1 & ss & m2 & r & A & B & M & U).
  - intros i Hi. destruct i as [|[|i]]; [| |lia]; cbn [streams]; split; repeat constructor; unfold Qle; cbn; lia.
  - simpl; lia.
  - vm_compute; discriminate.
  - rewrite M. do 2 f_equal. apply U. assert (T : exists m3 m4 s r, move_to_time 9 1%Q (built true [old_imu 3; old_imu 4; old_imu 5] [old_fix_at 2; old_fix_at (5 # 2); old_fix_at 7]) = Some (Done m3) /\
      take 9 m3 = Done (s :: r, true, m4) /\ s_type s = DATA_TYPE_GNSS).
    { do 4 eexists. split; [vm_compute; reflexivity|]. split; [vm_compute; reflexivity|]. reflexivity. }
    destruct T as (m3 & m4 & s & q & C & D & S). assert (m3 = m1) by congruence. subst m3. exists s, q. split; [congruence|exact S].
Qed.

(** ** C123: one line for every record after which the filter navigates, none before *)
Theorem C123_lines : forall c rate n start m mem j p0 opt init ss d0 t, old_ran c rate n start m mem j p0 opt init ss d0 t ->
  exists devs, length devs = length ss /\
    (forall k d, nth_error devs k = Some d -> exists l, api_run d0 (old_calls c rate (firstn (S k) ss)) = Some (d, l)) /\
    u_lines t = map df_output (filter navigates devs) /\
    (forall d b, navigates d = true -> api_do d (AResult b) = Some (d, RPva (df_output d))).
Proof.
  intros c rate n start m mem j p0 opt init ss d0 t R0. destruct (old_lines _ _ _ _ _ _ _ _ _ _ _ _ _ R0) as (devs & L & _ & P & E).
  exists devs. repeat split; auto. intros d b N. unfold navigates in N. cbn [api_do]. unfold api_result. destruct (d_status d); try discriminate. reflexivity.
Qed.
Print Assumptions C123_lines.
(** nothing written depends on what the result variable held; with a given state on nothing memory held *)
Theorem C123_result_variable : forall c rate n start m mem j p1 p2 opt init ss d0 t1 t2,
  old_ran c rate n start m mem j p1 opt init ss d0 t1 -> old_ran c rate n start m mem j p2 opt init ss d0 t2 -> u_lines t1 = u_lines t2.
Proof. exact result_unused. Qed.
Print Assumptions C123_result_variable.
Theorem C123_given_state : forall c rate n start m opt init ss mem1 j1 p1 d1 t1 mem2 j2 p2 d2 t2,
  old_ran c rate n start m mem1 j1 p1 opt init ss d1 t1 -> old_ran c rate n start m mem2 j2 p2 opt init ss d2 t2 ->
  o_align_mode (ao_rest opt) = ALIGN_USE_GIVEN -> u_lines t1 = u_lines t2 /\ length (u_lines t1) = length ss.
Proof. exact old_given. Qed.
Print Assumptions C123_given_state.
Example C123_case : forall mem p0, exists d0 t,
  old_ran (old_config false) 1 9 1%Q (old_files (9 # 4)) mem given_junk p0 given_ao pva_zero (old_taken (9 # 4)) d0 t /\ length (u_lines t) = 4%nat.
Proof.
  intros mem p0. destruct (old_case false mem p0 (9 # 4) (or_intror eq_refl)) as (d0 & t & R0). exists d0, t. split; [exact R0|].
  destruct (old_given _ _ _ _ _ _ _ _ _ _ _ _ _ _ _ _ _ _ R0 R0 eq_refl) as [_ L]. exact L.
Qed.

(** ** C124: the two programs agree if every fix is close to the sample in front of it and to none behind it *)
Theorem C124_programs_agree : forall c rate n start m mem j p0 p1 opt init ss d0 t u, pc_outage_enable c = false ->
  (forall a s b, ss = a ++ s :: b ->
    match s_type s with
    | DATA_TYPE_GNSS => exists i, last_imu a = Some i /\ close rate s i
    | DATA_TYPE_IMU => forall g, last_fix a = Some g -> ~ close rate g s
    end) ->
  ran c n start m mem j p0 opt init ss d0 t -> old_ran c rate n start m mem j p1 opt init ss d0 u ->
  u_dev u = t_dev t /\ exists keep, length keep = length ss /\
    (forall k b, nth_error keep k = Some b -> exists d l, api_run d0 (calls_of c (firstn (S k) ss)) = Some (d, l) /\
       (b = true <-> d_status d = RGIOE_STATUS_NAVIGATION)) /\
    u_lines u = pick keep (t_lines t).
Proof. exact programs_agree. Qed.
Print Assumptions C124_programs_agree.
(** the case: a fix a quarter of an interval behind a sample *)
Example C124_case : forall a s b, old_taken (9 # 4) = a ++ s :: b ->
    match s_type s with
    | DATA_TYPE_GNSS => exists i, last_imu a = Some i /\ close 1 s i
    | DATA_TYPE_IMU => forall g, last_fix a = Some g -> ~ close 1 g s
    end.
Proof.
  assert (N : forall k, (k = 3 \/ k = 5)%nat -> ~ close 1 (old_fix_at (9 # 4)) (old_imu k)).
  { intros k [-> | ->]; intros H; apply near_close in H; vm_compute in H; discriminate. }
  intros a s b E. unfold old_taken in E. destruct a as [|a0 [|a1 [|a2 [|a3 [|a4 a]]]]]; cbn [app] in E; try discriminate.
  - injection E as <- <-. cbn. discriminate.
  - injection E as <- <- <-. cbn. eexists. split; [reflexivity|]. apply near_close. vm_compute. reflexivity.
  - injection E as <- <- <- <-. cbn. intros g H. injection H as <-. apply N. auto.
  - injection E as <- <- <- <- <-. cbn. intros g H. injection H as <-. apply N. auto.
Qed.
