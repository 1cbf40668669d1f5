(** Model of the replay of recorded data, App/RtSimulation/src/navplay: NavRawReader.cpp, Beats (navplay_node.cpp:36-190),
    AdiHandle.cpp, and of the message loop of the fusion node (rtsim_fusion_node.cpp:81-115, 241-268).
    Simplifications: a record in memory is its bytes decoded by an arbitrary function; ROS delivers a published message unchanged;
    the callbacks and the loop of the fusion node exclude each other (in the code they do not: the queues are not locked). *)
From Coq Require Import QArith Qround List Bool ZArith NArith Arith.
Import ListNotations.
Open Scope nat_scope.

(** * The player *)
Section Player.
Context {B P : Type}.
(** RawStruct.h:96-113: time, type and the rest of the union *)
Record raw := Raw { rw_time : Q; rw_type : nat; rw_data : P }.
(** sizeof(RawDataDef), and what the bytes of a record mean *)
Variable size : nat.
Variable decode : list B -> raw.

(** NavRawReader.cpp:14-20: [ok_] and the unread bytes; [None]: fewer bytes than a record are left, ReadNext returns false *)
Record raw_reader := RawReader { rr_ok : bool; rr_rest : list B }.
(** NavRawReader.cpp:14-20 ReadNext *)
Definition read_raw (r : raw_reader) : option raw * raw_reader :=
  if rr_ok r then
    if (size <=? length (rr_rest r))%nat
    then (Some (decode (firstn size (rr_rest r))), RawReader true (skipn size (rr_rest r)))
    else (None, RawReader false [])
  else (None, r).

(** what is published: a message on one of the topics, or the end mark (an IMU message with the time -1) *)
Inductive message := M_imu (r : raw) | M_gnss (r : raw) | M_vel (r : raw) | M_path (r : raw) | M_end.

(** navplay_node.cpp:26-54: reader, counters, timer, and what was published *)
Record player := Player {
  pl_reader : raw_reader;
  pl_start : Q;             (* gpst_start *)
  pl_raw : option raw;      (* the member raw; None: zero-initialised *)
  pl_elapse : Q;            (* time_elapse *)
  pl_stopped : bool;        (* the timer is stopped *)
  pl_out : list message }.

(** navplay_node.cpp:192-218: before the first timer event *)
Definition player_init (file : list B) : player := Player (RawReader true file) 0 None 0 false [].

(** navplay_node.cpp:175-186: the topic by the type of the record *)
Definition publish (r : raw) : list message :=
  match rw_type r with
  | 0 => [M_imu r] | 1 => [M_gnss r] | 2 => [M_vel r] | 4 => [M_path r] | _ => []
  end.

(** navplay_node.cpp:155-190, one timer event: [now] the time since the start in seconds, [real_time] and [speed_up]
    the parameters.  A stopped timer fires no more. *)
Definition tick (real_time : bool) (speed_up : Z) (s : player) (now : Q) : player :=
  if pl_stopped s then s else
  if Qle_bool (pl_start s) 0 then
    match read_raw (pl_reader s) with
    | (None, rd) => Player rd (pl_start s) (pl_raw s) (pl_elapse s) true (pl_out s ++ [M_end])
    | (Some r, rd) => Player rd (rw_time r) (Some r) (pl_elapse s) false (pl_out s)
    end
  else
    let elapse := if real_time then now else (pl_elapse s + (1 # 1000) * inject_Z speed_up)%Q in
    let out := pl_out s ++ match pl_raw s with Some r => publish r | None => [] end in
    match read_raw (pl_reader s) with
    | (None, rd) => Player rd (pl_start s) (pl_raw s) elapse true (out ++ [M_end])
    | (Some r, rd) => Player rd (pl_start s) (Some r) elapse false out
    end.
(** the timer events in sequence *)
Definition play (real_time : bool) (speed_up : Z) (file : list B) (times : list Q) : player :=
  fold_left (tick real_time speed_up) times (player_init file).
End Player.
Arguments raw P : clear implicits. Arguments message P : clear implicits.

(** * The displayed path (navplay_node.cpp:111-150, rtsim_fusion_node.cpp:116-146): poses at whole seconds, cleared when there
    are more than 10000 *)
Definition whole_second (t : Q) : bool :=
  let i := if Qle_bool 0 t then Qfloor t else Qceiling t in
  let d := (t - inject_Z i)%Q in negb (Qle_bool (1 # 100) (if Qle_bool 0 d then d else - d)%Q).
(** navplay_node.cpp:111-150, rtsim_fusion_node.cpp:116-146: 10000 *)
Definition path_limit : N := 10000.
(** navplay_node.cpp:111-150, rtsim_fusion_node.cpp:116-146 for one result *)
Definition add_pose {A} (path : list A) (t : Q) (pose : A) : list A :=
  if whole_second t then
    let p := path ++ [pose] in if (path_limit <? N.of_nat (length p))%N then [] else p
  else path.
(** the same for one result after the other *)
Definition show_path {A} (results : list (Q * A)) : list A :=
  fold_left (fun p r => add_pose p (fst r) (snd r)) results [].

(** * The fusion node *)
Section Node.
Context {P : Type}.
(** boost::circular_buffer: [push_back] on a full buffer overwrites the oldest element *)
Definition push {A} (cap : nat) (q : list A) (x : A) : list A :=
  let q' := q ++ [x] in if (cap <? length q')%nat then tl q' else q'.
(** rtsim_fusion_node.cpp:164-166 set_capacity *)
Definition imu_capacity := 10. Definition gnss_capacity := 1. Definition vel_capacity := 10.

(** rtsim_fusion_node.cpp:81-115, 241-268: a message arrives, or a round of the loop *)
Inductive event := E_imu (t : Q) (x : P) | E_gnss (t : Q) (x : P) | E_vel (t : Q) (x : P) | E_loop.
(** calls of the library *)
Inductive call := C_pos (t : Q) (x : P) | C_vel (t : Q) (x : P) | C_imu (t : Q) (x : P).
(** rtsim_fusion_node.cpp:81-115 the three ring buffers, and the calls made so far *)
Record node := Node { nd_imu : list (Q * P); nd_gnss : list (Q * P); nd_vel : list (Q * P); nd_calls : list call }.

(** rtsim_fusion_node.cpp:81-115 the callbacks (IMU times are moved by one second), 241-268 one round of the loop after the
    alignment; [None]: front() of an empty buffer, undefined; navSetPos and GnssCheck are behind it *)
Definition node_step (s : option node) (e : event) : option node :=
  match s with
  | None => None
  | Some s =>
    match e with
    | E_imu t x => Some (Node (push imu_capacity (nd_imu s) ((t - 1)%Q, x)) (nd_gnss s) (nd_vel s) (nd_calls s))
    | E_gnss t x => Some (Node (nd_imu s) (push gnss_capacity (nd_gnss s) (t, x)) (nd_vel s) (nd_calls s))
    | E_vel t x => Some (Node (nd_imu s) (nd_gnss s) (push vel_capacity (nd_vel s) (t, x)) (nd_calls s))
    | E_loop =>
      match nd_gnss s with
      | [] => None
      | _ =>
        let c1 := match nd_vel s with (t, x) :: _ => [C_vel t x] | [] => [] end in
        let c2 := match nd_imu s with (t, x) :: _ => [C_imu t x] | [] => [] end in
        Some (Node (tl (nd_imu s)) (nd_gnss s) (tl (nd_vel s)) (nd_calls s ++ c1 ++ c2))
      end
    end
  end.
(** the events in sequence *)
Definition node_run (s : node) (es : list event) : option node :=
  fold_left node_step es (Some s).
End Node.
Arguments event P : clear implicits. Arguments call P : clear implicits. Arguments node P : clear implicits.
