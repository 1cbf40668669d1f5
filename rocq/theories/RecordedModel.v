(** What rgioe_get_result writes to the recording when the library is built with the recorder (option RECORDER of
    App/PostDataFusion/CMakeLists.txt): Src/rgioe.cpp:297-317. *)
From Coq Require Import Reals List.
From Verif Require Import RealMath EarthModel InsModel FusionBase FusionModel AlignModel ApiModel.
Import ListNotations.
Open Scope R_scope.

(** RecorderType.h:73-84: the message "result"; the fields are floats, the cast is left out.  [None]: not a number. *)
Record result_msg := Msg { g_time : R; g_status : status; g_pos : vec; g_vn : vec; g_atti : option vec }.

(** the static variable first_pos of the function: one for the whole process, set by the first result in NAVIGATION.
    Unset fields of the message are zero (rest of the aggregate, Recorder.h:86-92).
    Note that latitude and longitude of the result are degrees (InsCore/DataFusion::Output), and go to distance as they are. *)
Definition record_result (first : option vec) (s : status) (p : pva) : option vec * result_msg :=
  match s with
  | RGIOE_STATUS_ATTITUDE => (first, Msg (p_gpst p) s vzero vzero (p_atti p))
  | RGIOE_STATUS_NAVIGATION =>
    let f := match first with Some f => f | None => V (p_lat p) (p_lon p) (p_height p) end in
    (Some f, Msg (p_gpst p) s (distance6 (p_lat p) (p_lon p) (vx f) (vy f) (p_height p) (vz f)) (p_vn p) (p_atti p))
  | _ => (first, Msg (p_gpst p) s vzero vzero (Some vzero))
  end.

(** the messages of a process that asks for results, of whichever device *)
Fixpoint recorded (first : option vec) (l : list (status * pva)) : list result_msg :=
  match l with
  | [] => []
  | (s, p) :: r => let '(f, m) := record_result first s p in m :: recorded f r
  end.
