(** What the properties of the second post-processing program talk about. *)
From Coq Require Import QArith Qabs ZArith List Bool.
From Verif Require Import MergeModel SmoothModel FusionBase InsModel ApiModel ApiSpec PostModel OldModel.
Import ListNotations.

Definition is_imu (s : sample) : bool := match s_type s with DATA_TYPE_IMU => true | DATA_TYPE_GNSS => false end.
(** the last sample of a kind *)
Definition last_imu (ss : list sample) : option sample := find is_imu (rev ss).
Definition last_fix (ss : list sample) : option sample := find (fun s => negb (is_imu s)) (rev ss).
(** within six tenths of a sampling interval *)
Definition close (rate : Z) (g i : sample) : Prop := rate = 0%Z \/ Qabs (s_time g - s_time i) < (3 # 5) / inject_Z rate.

(** what the library is handed when, after the samples [pre], the sample [s] is read: an IMU sample itself, then the latest fix if the
    latest IMU sample is close to it *)
Definition turn_calls (c : post_config) (rate : Z) (pre : list sample) (s : sample) : list api_call :=
  (if is_imu s then [ATime (Some (pc_imu_of c s))] else []) ++
  match last_fix (pre ++ [s]), last_imu (pre ++ [s]) with
  | Some g, Some i => if old_near rate g i then [AGnss (Some (pc_fix_of c g))] else []
  | _, _ => []
  end.
Fixpoint calls_after (c : post_config) (rate : Z) (pre ss : list sample) : list api_call :=
  match ss with [] => [] | s :: r => turn_calls c rate pre s ++ calls_after c rate (pre ++ [s]) r end.
Definition old_calls (c : post_config) (rate : Z) (ss : list sample) : list api_call := calls_after c rate [] ss.

(** the program took the samples [ss], initialised the device to [d0] and ended in [t] *)
Definition old_ran (c : post_config) (rate : Z) (n : nat) (start : Q) (m : manager) (mem : device) (j : junk) (p0 : pva) (opt : api_option)
    (init : pva) (ss : list sample) (d0 : device) (t : old) : Prop :=
  (exists m1 m2, move_to_time n start m = Some (Done m1) /\ take n m1 = Done (ss, true, m2)) /\
  api_init mem j (Some opt) (Some init) = Some (d0, RGIOE_OK) /\
  old_main c rate n start m mem j p0 opt init = Some (Done (Some t)).

Definition navigates (d : device) : bool := match d_status d with RGIOE_STATUS_NAVIGATION => true | _ => false end.
(** how often the library is handed the fix [x] *)
Definition hand_overs (cs : list api_call) : list gnss := flat_map (fun a => match a with AGnss (Some x) => [x] | _ => [] end) cs.
