(** Model of the background result writer NavWriter, App/AppCommon/FileIO.cpp:123-196:
    a two-thread transition system.  The user's thread constructs the writer, calls
    [update] for each result, then [stop]; the writer thread runs [th_write_nav].
    A schedule is any sequence of thread choices; a thread that cannot move (mutex held, join
    on a running thread) stays where it is.

    Simplifications: a result is an abstract value; writing to the stream is one step that
    appends to the file; [queue::empty()] is one atomic step although it is called without
    the mutex (a data race, see [racing] and C42 below). *)
From Coq Require Import List Bool.
Import ListNotations.

Section W.
Context {A : Type}.

(** program points of the user's thread (FileIO.cpp:123-126, 140-150) *)
Inductive upc :=
| U_next            (* between calls: next update, or stop *)
| U_push            (* in update, mutex held, before emplace (:142) *)
| U_unlock          (* in update, before unlock (:143) *)
| U_join            (* in stop, flag cleared, waiting in join (:149) *)
| U_done.           (* stop returned *)
(** program points of the writer thread (FileIO.cpp:172-196) *)
Inductive wpc :=
| W_test            (* while (flag_running.test_and_set())  :179 *)
| W_empty           (* while (!nav_msgs.empty())  :180 *)
| W_lock            (* mtx_nav.lock()  :181 *)
| W_pop             (* front(), pop()  :182-183 *)
| W_unlock          (* mtx_nav.unlock()  :184 *)
| W_write           (* write p_nav to the file  :185-192 *)
| W_exit.           (* file closed, thread finished  :195 *)
Inductive owner := O_none | O_user | O_writer.

(** FileIO.h, FileIO.cpp:123-196: the state of both threads *)
Record wstate := {
  todo : list A;       (* results the user still has to queue *)
  pushed : list A;     (* ghost: results queued so far, in order *)
  queue : list A;      (* nav_msgs *)
  flag : bool;         (* flag_running *)
  mutex : owner;       (* mtx_nav *)
  upoint : upc; wpoint : wpc;
  inhand : option A;   (* p_nav *)
  file : list A;       (* written results *)
  crashed : bool       (* front() on an empty queue *)
}.

(** FileIO.cpp:123-126 constructor: the flag is set before the thread starts *)
Definition w_init (rs : list A) : wstate :=
  {| todo := rs; pushed := []; queue := []; flag := true; mutex := O_none;
     upoint := U_next; wpoint := W_test; inhand := None; file := []; crashed := false |}.

(** one step of the user's thread *)
Definition step_user (s : wstate) : wstate :=
  match upoint s with
  | U_next =>
    match todo s with
    | [] => (* stop(): flag_running.clear() :147 *)
      {| todo := []; pushed := pushed s; queue := queue s; flag := false; mutex := mutex s;
         upoint := U_join; wpoint := wpoint s; inhand := inhand s; file := file s; crashed := crashed s |}
    | _ :: _ => (* update(): mtx_nav.lock() :141 *)
      match mutex s with
      | O_none =>
        {| todo := todo s; pushed := pushed s; queue := queue s; flag := flag s; mutex := O_user;
           upoint := U_push; wpoint := wpoint s; inhand := inhand s; file := file s; crashed := crashed s |}
      | _ => s
      end
    end
  | U_push =>
    match todo s with
    | r :: rest =>
      {| todo := rest; pushed := pushed s ++ [r]; queue := queue s ++ [r]; flag := flag s; mutex := mutex s;
         upoint := U_unlock; wpoint := wpoint s; inhand := inhand s; file := file s; crashed := crashed s |}
    | [] => s
    end
  | U_unlock =>
      {| todo := todo s; pushed := pushed s; queue := queue s; flag := flag s; mutex := O_none;
         upoint := U_next; wpoint := wpoint s; inhand := inhand s; file := file s; crashed := crashed s |}
  | U_join =>
    match wpoint s with
    | W_exit =>
      {| todo := todo s; pushed := pushed s; queue := queue s; flag := flag s; mutex := mutex s;
         upoint := U_done; wpoint := wpoint s; inhand := inhand s; file := file s; crashed := crashed s |}
    | _ => s
    end
  | U_done => s
  end.

(** the writer thread goes to the program point p *)
Definition set_w (s : wstate) (p : wpc) : wstate :=
  {| todo := todo s; pushed := pushed s; queue := queue s; flag := flag s; mutex := mutex s;
     upoint := upoint s; wpoint := p; inhand := inhand s; file := file s; crashed := crashed s |}.

(** one step of the writer thread *)
Definition step_writer (s : wstate) : wstate :=
  match wpoint s with
  | W_test => (* test_and_set returns the old value and sets the flag *)
    {| todo := todo s; pushed := pushed s; queue := queue s; flag := true; mutex := mutex s;
       upoint := upoint s; wpoint := if flag s then W_empty else W_exit;
       inhand := inhand s; file := file s; crashed := crashed s |}
  | W_empty => match queue s with [] => set_w s W_test | _ => set_w s W_lock end
  | W_lock =>
    match mutex s with
    | O_none =>
      {| todo := todo s; pushed := pushed s; queue := queue s; flag := flag s; mutex := O_writer;
         upoint := upoint s; wpoint := W_pop; inhand := inhand s; file := file s; crashed := crashed s |}
    | _ => s
    end
  | W_pop =>
    match queue s with
    | r :: rest =>
      {| todo := todo s; pushed := pushed s; queue := rest; flag := flag s; mutex := mutex s;
         upoint := upoint s; wpoint := W_unlock; inhand := Some r; file := file s; crashed := crashed s |}
    | [] =>
      {| todo := todo s; pushed := pushed s; queue := []; flag := flag s; mutex := mutex s;
         upoint := upoint s; wpoint := W_unlock; inhand := None; file := file s; crashed := true |}
    end
  | W_unlock =>
    {| todo := todo s; pushed := pushed s; queue := queue s; flag := flag s; mutex := O_none;
       upoint := upoint s; wpoint := W_write; inhand := inhand s; file := file s; crashed := crashed s |}
  | W_write =>
    {| todo := todo s; pushed := pushed s; queue := queue s; flag := flag s; mutex := mutex s;
       upoint := upoint s; wpoint := W_empty; inhand := None;
       file := file s ++ match inhand s with Some r => [r] | None => [] end; crashed := crashed s |}
  | W_exit => s
  end.

(** a schedule: [true] the user's thread moves, [false] the writer *)
Definition wstep (s : wstate) (who : bool) : wstate := if who then step_user s else step_writer s.
(** the steps of a schedule in sequence *)
Definition wrun (sched : list bool) (s : wstate) : wstate := fold_left wstep sched s.

(** the two threads access the queue at the same time, one of them modifying it, with no
    common lock: undefined behaviour of the C++ memory model *)
Definition racing (s : wstate) : Prop := upoint s = U_push /\ wpoint s = W_empty.
End W.
Arguments wstate A : clear implicits.
