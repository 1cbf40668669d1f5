(** Property theorems C39-C42 and C52-C54: simulated outages, merging of sensor streams, the
    background result writer.
    Models: OutageModel, MergeModel, WriterModel.  Specifications: OutageSpec, MergeSpec. *)
From Coq Require Import QArith List Arith Bool Lia Sorted.
From Verif Require Import MergeReset MergeModel MergeSpec MergeProofs MergeProofs2 OutageModel OutageSpec
  OutageProofs WriterModel WriterProofs.
Import ListNotations.
Open Scope Q_scope.

(** * C39  outage windows *)
Theorem C39_outage_windows : forall start stop len step, valid_plan start stop len step -> 0 < step ->
  exists fuel o, new_outage fuel start stop len step = Some o /\
    forall t, is_outage o t = true <-> in_window start stop len step t.
Proof. exact outage_windows. Qed.
Print Assumptions C39_outage_windows.
Example C39_nonvacuous : valid_plan 100 200 10 30 /\ in_window 100 200 10 30 135 /\
  exists o, new_outage 5 100 200 10 30 = Some o /\ is_outage o 135 = true /\ is_outage o 141 = false.
Proof.
  split; [repeat split; [intros [H _]; now compute in H| |]; unfold Qle; cbn; lia|]. split.
  - exists 1%nat. cbn. repeat split; unfold Qlt, Qle; cbn; lia.
  - eexists. repeat split; vm_compute; reflexivity.
Qed.
Theorem C39_disabled_never_outage : forall fuel start stop len step, ~ valid_plan start stop len step ->
  exists o, new_outage fuel start stop len step = Some o /\ forall t, is_outage o t = false.
Proof. exact outage_disabled. Qed.
Print Assumptions C39_disabled_never_outage.
Example C39_invalid_plan : ~ valid_plan 100 200 40 30.
Proof. intros [_ [_ H]]. unfold Qle in H. cbn in H. lia. Qed.
(** construction terminates: false.  A plan with length 0 and step 0 passes the validity check
    and the constructor never returns. *)
Theorem C39_construction_terminates_refuted :
  exists start stop len step, valid_plan start stop len step /\
    forall fuel, new_outage fuel start stop len step = None.
Proof.
  exists 0, 1, 0, 0. exact (outage_hang 0 1 eq_refl).
Qed.
Print Assumptions C39_construction_terminates_refuted.
Theorem C39_zero_step_hangs : forall start stop, start < stop ->
  valid_plan start stop 0 0 /\ forall fuel, new_outage fuel start stop 0 0 = None.
Proof. exact outage_hang. Qed.
Print Assumptions C39_zero_step_hangs.
Theorem C39_one_window_at_a_time : forall start len step t (j k : nat), 0 <= len -> len < step ->
  start + inject_Z (Z.of_nat j) * step <= t <= start + inject_Z (Z.of_nat j) * step + len ->
  start + inject_Z (Z.of_nat k) * step <= t <= start + inject_Z (Z.of_nat k) * step + len -> j = k.
Proof. exact windows_disjoint. Qed.
Print Assumptions C39_one_window_at_a_time.

(** * C40  time-ordered merge *)
Definition two_imu : list sample :=
  [{| s_type := DATA_TYPE_IMU; s_time := 1; s_gpst := 1; s_tag := 0 |};
   {| s_type := DATA_TYPE_IMU; s_time := 2; s_gpst := 2; s_tag := 1 |};
   {| s_type := DATA_TYPE_IMU; s_time := 3; s_gpst := 3; s_tag := 2 |}].
Definition one_gnss : list sample :=
  [{| s_type := DATA_TYPE_GNSS; s_time := 2; s_gpst := 2; s_tag := 3 |}].

Theorem C40_merge : forall (g : bool) imu gnss n,
  usable (if g then 2%nat else 1%nat) (streams imu gnss) ->
  exists l e m' who, take n (built g imu gnss) = Done (l, e, m') /\
    interleaves (if g then 2%nat else 1%nat) (streams imu gnss) (position m') who l /\
    time_ordered l /\ ties_by_stream who l /\
    (e = true -> exists i, (i < if g then 2 else 1)%nat /\ position m' i = length (streams imu gnss i)) /\
    (e = false -> length l = n).
Proof. exact merge_all. Qed.
Print Assumptions C40_merge.
Theorem C40_end_is_reported : forall (g : bool) imu gnss n l e m',
  usable (if g then 2%nat else 1%nat) (streams imu gnss) ->
  (length imu + length gnss < n)%nat -> take n (built g imu gnss) = Done (l, e, m') -> e = true.
Proof. exact merge_ends. Qed.
Print Assumptions C40_end_is_reported.
Example C40_nonvacuous : usable 2 (streams two_imu one_gnss) /\
  (exists m', take 9 (built true two_imu one_gnss) =
     Done (firstn 2 two_imu ++ one_gnss, true, m')).
Proof.
  split.
  - intros i Hi. destruct i as [|[|i]]; [| |lia]; cbn [streams two_imu one_gnss]; split;
      repeat constructor; unfold Qle; cbn; lia.
  - eexists. vm_compute. reflexivity.
Qed.

(** * C41  everything is delivered: false *)
Theorem C41_all_delivered_refuted : exists imu gnss l m' x,
  usable 2 (streams imu gnss) /\ take 99 (built true imu gnss) = Done (l, true, m') /\ In x imu /\ ~ In x l.
Proof.
  exists two_imu, one_gnss, (firstn 2 two_imu ++ one_gnss). eexists. eexists.
  split; [exact (proj1 C40_nonvacuous)|]. split; [vm_compute; reflexivity|].
  split; [right; right; left; reflexivity|]. cbn. intuition discriminate.
Qed.
Print Assumptions C41_all_delivered_refuted.
(** what is lost: with GNSS enabled no IMU sample later than the last fix is ever delivered *)
Theorem C41_tail_is_lost : forall imu gnss n l e m' z, usable 2 (streams imu gnss) ->
  nth_error gnss (length gnss - 1) = Some z -> take n (built true imu gnss) = Done (l, e, m') ->
  forall x, In x imu -> s_time z < s_time x -> ~ In x l.
Proof. exact tail_lost. Qed.
Print Assumptions C41_tail_is_lost.
(** without GNSS everything is delivered *)
Theorem C41_imu_only_partial : forall imu gnss n, usable 1 (streams imu gnss) -> (length imu < n)%nat ->
  exists m', take n (built false imu gnss) = Done (imu, true, m').
Proof. exact imu_only_complete. Qed.
Print Assumptions C41_imu_only_partial.

(** * C42  background writer *)
Theorem C42_every_result_written_refuted : exists sched,
  let s := wrun sched (w_init [7%nat]) in upoint s = U_done /\ file s = [].
Proof. exists losing_schedule. vm_compute. split; reflexivity. Qed.
Print Assumptions C42_every_result_written_refuted.
(** the queue is inspected without the lock while the other thread changes it: a data race *)
Theorem C42_race_free_refuted : exists sched, racing (wrun sched (w_init [7%nat])).
Proof. exists (false :: true :: nil). vm_compute. split; reflexivity. Qed.
Print Assumptions C42_race_free_refuted.
(** under every schedule: what is in the file is a prefix of what was queued, in order and
    without repetition; what is missing at the end is what was still queued *)
Theorem C42_file_is_prefix_partial : forall (A : Type) (rs : list A) sched,
  exists rest, file (wrun sched (w_init rs)) ++ rest = rs.
Proof. exact @file_prefix. Qed.
Print Assumptions C42_file_is_prefix_partial.
Theorem C42_missing_are_queued_partial : forall (A : Type) (rs : list A) sched,
  let s := wrun sched (w_init rs) in upoint s = U_done -> file s ++ queue s = rs.
Proof. exact @missing_are_queued. Qed.
Print Assumptions C42_missing_are_queued_partial.
Theorem C42_no_empty_pop_partial : forall (A : Type) (rs : list A) sched,
  crashed (wrun sched (w_init rs)) = false.
Proof. exact @never_crashes. Qed.
Print Assumptions C42_no_empty_pop_partial.
Theorem C42_no_deadlock_partial : forall (A : Type) (rs : list A) sched,
  let s := wrun sched (w_init rs) in upoint s <> U_done -> step_user s <> s \/ step_writer s <> s.
Proof. exact @no_deadlock. Qed.
Print Assumptions C42_no_deadlock_partial.
(** once stop() waits, the writer ends after at most [wmeasure] of its own steps *)
Theorem C42_stop_returns_partial : forall (A : Type) (rs : list A) before sched,
  let s := wrun before (w_init rs) in
  upoint s = U_join -> (wmeasure s <= moves false sched)%nat -> wpoint (wrun sched s) = W_exit.
Proof. intros A rs before sched s. exact (stop_ends rs sched s (winv_run rs before)). Qed.
Print Assumptions C42_stop_returns_partial.
(** a schedule on which everything is written exists *)
Example C42_good_schedule : exists sched,
  let s := wrun sched (w_init [7%nat; 8%nat]) in upoint s = U_done /\ file s = [7%nat; 8%nat].
Proof.
  exists ([true;true;true;true;true;true] ++ [false;false;false;false;false;false;false;false;false;false;false;false]
          ++ [true;false;false;true]).
  vm_compute. split; reflexivity.
Qed.

(** * C52  processing starts at the configured time *)
(** false: the first sample at or after the start time is consumed as well *)
Theorem C52_start_time_refuted : exists imu gnss m' x,
  usable 2 (streams imu gnss) /\ move_to_time 99 1 (built true imu gnss) = Some (Done m') /\
  In x imu /\ 1 <= s_time x /\
  exists l m'', take 99 m' = Done (l, true, m'') /\ ~ In x l.
Proof.
  exists two_imu, one_gnss. eexists. exists {| s_type := DATA_TYPE_IMU; s_time := 1; s_gpst := 1; s_tag := 0 |}.
  split; [exact (proj1 C40_nonvacuous)|]. split; [vm_compute; reflexivity|].
  split; [left; reflexivity|]. split; [unfold Qle; cbn; lia|].
  do 2 eexists. split; [vm_compute; reflexivity|]. cbn. intuition discriminate.
Qed.
Print Assumptions C52_start_time_refuted.
(** exactly: all samples before the time are consumed, plus the first one at or after it *)
Theorem C52_move_to_time_partial : forall k target m m', move_to_time k target m = Some (Done m') ->
  (exists n l, take n m = Done (l, true, m') /\ Forall (fun s => s_time s < target) l) \/
  (exists n l d, take n m = Done (l ++ [d], false, m') /\ Forall (fun s => s_time s < target) l /\
     target <= s_time d).
Proof. exact move_spec. Qed.
Print Assumptions C52_move_to_time_partial.

(** * C53  time statistics *)
(** the reported mean interval is the mean of the intervals: false, it divides by one too many *)
Theorem C53_mean_interval_refuted : exists d l, Forall (fun s => 0 < s_time s) (d :: l) /\ l <> [] /\
  ~ average_delta_time (fold_left (fun c d => check_update d c) (d :: l) new_checker) ==
    (s_time (last l d) - s_time d) / inject_Z (Z.of_nat (length l)).
Proof.
  exists (nth 0 two_imu (nth 0 one_gnss (nth 1 two_imu (nth 2 two_imu {| s_type := DATA_TYPE_IMU; s_time := 1; s_gpst := 1; s_tag := 0 |})))), (tl two_imu).
  split; [repeat constructor|]. split; [discriminate|]. vm_compute. discriminate.
Qed.
Print Assumptions C53_mean_interval_refuted.
Theorem C53_statistics_partial : forall d l, Forall (fun s => 0 < s_time s) (d :: l) ->
  let c := fold_left (fun c d => check_update d c) (d :: l) new_checker in
  data_cnt c = S (length l) /\
  average_delta_time c == (s_time (last l d) - s_time d) / inject_Z (Z.of_nat (S (length l))) /\
  (forall g, In g (gaps (d :: l)) -> g <= max_delta_time c) /\
  (0 <= max_delta_time c) /\ (max_delta_time c = 0 \/ In (max_delta_time c) (gaps (d :: l))).
Proof. exact check_stats. Qed.
Print Assumptions C53_statistics_partial.

(** * C54  progress *)
(** reading any streams: the progress is the percentage of IMU samples delivered, 100 exactly when
    all are *)
Theorem C54_progress : forall (g : bool) imu gnss n l e m',
  usable (if g then 2%nat else 1%nat) (streams imu gnss) -> imu <> [] ->
  take n (built g imu gnss) = Done (l, e, m') ->
  exists who p, interleaves (if g then 2%nat else 1%nat) (streams imu gnss) (position m') who l /\
    get_progress m' = Done p /\
    p = (100 * length (from_stream 0 who l) / length imu)%nat /\ (p <= 100)%nat /\
    (p = 100%nat <-> from_stream 0 who l = imu).
Proof. exact progress_run. Qed.
Print Assumptions C54_progress.
Theorem C54_progress_empty_refuted : forall gnss g, get_progress (built g [] gnss) = Undefined.
Proof. intros gnss [|]; reflexivity. Qed.
Print Assumptions C54_progress_empty_refuted.
Example C54_nonvacuous : exists l e m', take 2 (built true two_imu one_gnss) = Done (l, e, m') /\
  get_progress m' = Done 66%nat.
Proof. do 3 eexists. split; vm_compute; reflexivity. Qed.

(** * C79  rewinding *)
(** after Reset the same samples come in the same order, and the end is reported at the same place *)
Theorem C79_rewind_delivers_again : forall (g : bool) imu gnss k l e m' n, take k (built g imu gnss) = Done (l, e, m') ->
  match take n (built g imu gnss), take n (reset m') with
  | Undefined, Undefined => True
  | Done (l1, e1, _), Done (l2, e2, _) => l1 = l2 /\ e1 = e2
  | _, _ => False
  end.
Proof. exact rewind. Qed.
Print Assumptions C79_rewind_delivers_again.
(** the statistics are not rewound *)
Theorem C79_statistics_refuted : ~ (forall imu k l e m' n l2 e2 m2, take k (built false imu []) = Done (l, e, m') ->
  take n (reset m') = Done (l2, e2, m2) -> data_cnt (check m2) = length l2 /\
    forall l3 e3 m3, take n (built false imu []) = Done (l3, e3, m3) -> average_delta_time (check m2) == average_delta_time (check m3)).
Proof.
  intros H. destruct (take 3 (built false two_imu [])) as [[[l e] m']|] eqn:T; [|vm_compute in T; discriminate].
  destruct (take 3 (reset m')) as [[[l2 e2] m2]|] eqn:T2; [|injection T as <- <- <-; vm_compute in T2; discriminate].
  destruct (H _ _ _ _ _ _ _ _ _ T T2) as [D _]. injection T as <- <- <-. injection T2 as <- <- <-. vm_compute in D. discriminate.
Qed.
Print Assumptions C79_statistics_refuted.
Example C79_nonvacuous : exists m' m2, take 2 (built false two_imu []) = Done (firstn 2 two_imu, false, m') /\
  take 3 (reset m') = Done (two_imu, false, m2).
Proof. do 2 eexists. split; vm_compute; reflexivity. Qed.
