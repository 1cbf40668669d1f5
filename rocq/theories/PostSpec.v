(** What the properties of the post-processing program talk about. *)
From Coq Require Import QArith Reals List Bool.
From Verif Require Import MergeModel OutageModel OutageSpec SmoothModel FusionBase InsModel ApiModel ApiSpec PostModel.
Import ListNotations.

(** the calls the library is expected to get for a sample: every IMU sample, and every fix outside the outages *)
Definition call_of (c : post_config) (s : sample) : list api_call :=
  match s_type s with
  | DATA_TYPE_IMU => [ATime (Some (pc_imu_of c s))]
  | DATA_TYPE_GNSS =>
    if pc_outage_enable c && is_outage (pc_outage c) (s_time s) then [] else [AGnss (Some (pc_fix_of c s))]
  end.
Definition calls_of (c : post_config) (ss : list sample) : list api_call := flat_map (call_of c) ss.

(** a sample that reaches the library *)
Definition kept (c : post_config) (s : sample) : bool :=
  match s_type s with
  | DATA_TYPE_IMU => true
  | DATA_TYPE_GNSS => negb (pc_outage_enable c && is_outage (pc_outage c) (s_time s))
  end.
(** the same program without simulated outages *)
Definition no_outage (c : post_config) : post_config := PC false (pc_outage c) (pc_imu_of c) (pc_fix_of c).
(** the lines written for the samples that are kept *)
Fixpoint kept_lines (c : post_config) (ss : list sample) (ls : list (option pva)) : list (option pva) :=
  match ss, ls with
  | s :: ss', l :: ls' => if kept c s then l :: kept_lines c ss' ls' else kept_lines c ss' ls'
  | _, _ => []
  end.
(** the time of the last IMU sample of a history *)
Definition last_imu_time (cs : list api_call) (t : R) : Prop :=
  exists h x, imus cs = h ++ [x] /\ i_gpst x = t.

(** the program, started with these files and settings, took the samples [ss] from the data manager, initialised the device to
    [d0] and ended in [t] *)
Definition ran (c : post_config) (n : nat) (start : Q) (m : manager) (mem : device) (j : junk) (p0 : pva) (opt : api_option)
    (init : pva) (ss : list sample) (d0 : device) (t : post) : Prop :=
  (exists m1 m2, move_to_time n start m = Some (Done m1) /\ take n m1 = Done (ss, true, m2)) /\
  api_init mem j (Some opt) (Some init) = Some (d0, RGIOE_OK) /\
  post_main c n start m mem j p0 opt init = Some (Done (Some t)).
(** the times of the IMU samples do not decrease *)
Definition imu_ordered (c : post_config) (ss : list sample) : Prop :=
  forall a b x y, (a < b)%nat -> nth_error ss a = Some x -> nth_error ss b = Some y ->
    s_type x = DATA_TYPE_IMU -> s_type y = DATA_TYPE_IMU -> (i_gpst (pc_imu_of c x) <= i_gpst (pc_imu_of c y))%R.
