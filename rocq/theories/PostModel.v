(** App/PostDataFusion/PostDataFusion.cpp:30-105: the post-processing program. The readers (FileIO) deliver samples to the data
    manager (MergeModel); a sample carries a tag, and [imu_of]/[fix_of] say which numbers the library gets for it
    (ImuData_t::toRgioeData, GnssData_t::toRgioeData; ReaderModel). Not modelled: log output, the recorder (off as shipped), the
    run time, exceptions and failures to open files; the text the writer makes of a result. *)
From Coq Require Import QArith Reals List Bool.
From Verif Require Import MergeModel OutageModel SmoothModel FusionBase ApiModel.
Import ListNotations.

(** Config.h: what the loop reads from the configuration, and the contents of the files *)
Record post_config := PC {
  pc_outage_enable : bool; pc_outage : outage; pc_imu_of : sample -> imu; pc_fix_of : sample -> gnss }.

(** lines 48-50: the device, the variable [result] ([None]: it holds numbers that are not finite) and what was handed to the
    writer so far *)
Record post := Post { t_dev : device; t_result : option pva; t_lines : list (option pva) }.

(** lines 71-88: feeding one sample to the library; [None]: undefined behaviour *)
Definition post_feed (c : post_config) (d : device) (s : sample) : option device :=
  match s_type s with
  | DATA_TYPE_IMU => match api_time d (Some (pc_imu_of c s)) with Some (d', _) => Some d' | None => None end
  | DATA_TYPE_GNSS =>
    if pc_outage_enable c && is_outage (pc_outage c) (s_time s) then Some d
    else Some (fst (api_gnss d (Some (pc_fix_of c s))))
  end.
(** rgioe_get_result writing into a structure that may already hold numbers that are not finite *)
Definition read_result (d : device) (r : option pva) : option pva :=
  match r with
  | Some p => api_result d p
  | None => match d_status d with RGIOE_STATUS_NAVIGATION => df_output d | _ => None end
  end.
(** lines 65-95: one turn of the loop *)
Definition post_step (c : post_config) (t : post) (s : sample) : option post :=
  match post_feed c (t_dev t) s with
  | None => None
  | Some d => let r := read_result d (t_result t) in Some (Post d r (t_lines t ++ [r]))
  end.
(** lines 65-95: the whole loop *)
Fixpoint post_run (c : post_config) (t : post) (ss : list sample) : option post :=
  match ss with [] => Some t | s :: r => match post_step c t s with Some t1 => post_run c t1 r | None => None end end.

(** lines 41-95, without the default option the library never gets here: [mem] is what the buffer of the device holds, [junk] and
    [p0] what uninitialised memory holds ([p0]: line 49). The loop reads until the manager reports the end. *)
Definition post_main (c : post_config) (turns : nat) (start : Q) (m : manager) (mem : device) (j : junk) (p0 : pva)
    (opt : api_option) (init : pva) : option (outcome (option post)) :=
  match move_to_time turns start m with
  | None => None
  | Some Undefined => Some Undefined
  | Some (Done m1) =>
    match take turns m1 with
    | Undefined => Some Undefined
    | Done (_, false, _) => None
    | Done (ss, true, _) =>
      match api_init mem j (Some opt) (Some init) with
      | None => Some Undefined
      | Some (d, _) => Some (Done (post_run c (Post d (Some p0) []) ss))
      end
    end
  end.
