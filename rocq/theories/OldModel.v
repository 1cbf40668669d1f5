(** App/PostDataFusion/PostDataFusion_old.cpp:33-108: the second post-processing program that is built (App/PostDataFusion/CMakeLists.txt:94-101).
    Same conventions and simplifications as PostModel: log output, the recorder, the run time and failures to open files are not
    modelled. The quotient 0.6 / d_rate is exact. *)
From Coq Require Import QArith Qabs ZArith List Bool.
From Verif Require Import MergeModel OutageModel SmoothModel FusionBase ApiModel PostModel.
Import ListNotations.

(** lines 50, 68-69: the device, the variable [result], the pointers [imu] and [gnss], and what was handed to the writer so far *)
Record old := Old { u_dev : device; u_result : option pva; u_imu : option sample; u_gnss : option sample; u_lines : list (option pva) }.

(** line 94  fabs(gnss->time - imu->time) < 0.6/opt.d_rate; the quotient is infinite for d_rate = 0 *)
Definition old_near (rate : Z) (g i : sample) : bool :=
  if (rate =? 0)%Z then true else Qltb (Qabs (s_time g - s_time i)) ((3 # 5) / inject_Z rate).
(** lines 76-93: the switch; the device and the two pointers afterwards. The test of the outage (line 88) only leaves the switch. *)
Definition old_switch (c : post_config) (d : device) (i g : option sample) (s : sample) : option (device * option sample * option sample) :=
  match s_type s with
  | DATA_TYPE_IMU => match api_time d (Some (pc_imu_of c s)) with Some (d', _) => Some (d', Some s, g) | None => None end
  | DATA_TYPE_GNSS => Some (d, i, Some s)
  end.
(** lines 94-97; [None]: imu is the null pointer *)
Definition old_fix (c : post_config) (rate : Z) (d : device) (i g : option sample) : option device :=
  match g, i with
  | None, _ => Some d
  | Some _, None => None
  | Some g, Some i => if old_near rate g i then Some (fst (api_gnss d (Some (pc_fix_of c g)))) else Some d
  end.
(** lines 71-104: one turn of the loop *)
Definition old_step (c : post_config) (rate : Z) (t : old) (s : sample) : option old :=
  match old_switch c (u_dev t) (u_imu t) (u_gnss t) s with
  | None => None
  | Some (d1, i, g) =>
    match old_fix c rate d1 i g with
    | None => None
    | Some d =>
      match d_status d with
      | RGIOE_STATUS_NAVIGATION => let r := read_result d (u_result t) in Some (Old d r i g (u_lines t ++ [r]))
      | _ => Some (Old d (u_result t) i g (u_lines t))
      end
    end
  end.
(** lines 71-104: the whole loop *)
Fixpoint old_run (c : post_config) (rate : Z) (t : old) (ss : list sample) : option old :=
  match ss with [] => Some t | s :: r => match old_step c rate t s with Some t1 => old_run c rate t1 r | None => None end end.

(** lines 43-104, as [post_main] *)
Definition old_main (c : post_config) (rate : Z) (turns : nat) (start : Q) (m : manager) (mem : device) (j : junk) (p0 : pva)
    (opt : api_option) (init : pva) : option (outcome (option old)) :=
  match move_to_time turns start m with
  | None => None
  | Some Undefined => Some Undefined
  | Some (Done m1) =>
    match take turns m1 with
    | Undefined => Some Undefined
    | Done (_, false, _) => None
    | Done (ss, true, _) =>
      match api_init mem j (Some opt) (Some init) with
      | None => Some Undefined
      | Some (d, _) => Some (Done (old_run c rate (Old d (Some p0) None None []) ss))
      end
    end
  end.
