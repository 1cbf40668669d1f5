(** Model of App/PostDataFusion/DataManager.h/.cpp: the data manager that merges the
    sensor streams in time order.

    Simplifications: time stamps are finite numbers, represented exactly by rationals
    ([double] comparison of finite values is exact; NaN is not modelled); the payload of a
    sample is a tag; [int position] and [uint32_t data_cnt] are unbounded. Log output
    and the time_check record are left out. *)
From Coq Require Import QArith List Arith Bool.
Import ListNotations.

(** FileIO.h:130-136,151-169  BaseData_t / ImuData_t / GnssData_t *)
Inductive data_type := DATA_TYPE_IMU | DATA_TYPE_GNSS.
(** FileIO.h:130-136,151-169; the other members do not matter here and are named by [s_tag] *)
Record sample := { s_type : data_type; s_time : Q; s_gpst : Q; s_tag : nat }.

(** climits INT_MAX, as a double *)
Definition INT_MAX : Q := 2147483647 # 1.
(** < on doubles, as exact numbers *)
Definition Qltb (x y : Q) : bool := negb (Qle_bool y x).

(** DataManager.h:35-46  argmin(array, num): [l] are the entries from index [i] on *)
Fixpoint argmin_loop (l : list Q) (i : nat) (min_value : Q) (arg_min : nat) : nat :=
  match l with
  | [] => arg_min
  | x :: r => if Qltb x min_value then argmin_loop r (S i) x i
              else argmin_loop r (S i) min_value arg_min
  end.
(** DataManager.h:35-46 argmin(array, num) of the whole array *)
Definition argmin (l : list Q) : nat := argmin_loop l 0 INT_MAX 0.

(** DataManager.h:58-71  DataSeqCheck *)
Record checker := {
  data_cnt : nat; last_time : Q; delta_time : Q; average_delta_time : Q;
  max_delta_time : Q; gnss_delay_time : Q }.
(** DataManager.h:58-71 the initial members *)
Definition new_checker : checker :=
  {| data_cnt := 0; last_time := 0; delta_time := 0; average_delta_time := 0;
     max_delta_time := 0; gnss_delay_time := 0 |}.

(** DataManager.cpp:109-123  DataSeqCheck::Update *)
Definition check_update (d : sample) (c : checker) : checker :=
  let delta := if Qltb 0 (last_time c) then s_time d - last_time c else 0 in
  let cnt := S (data_cnt c) in
  {| data_cnt := cnt;
     last_time := s_time d;
     delta_time := delta;
     average_delta_time :=
       (average_delta_time c * inject_Z (Z.of_nat (cnt - 1)) + delta) / inject_Z (Z.of_nat cnt);
     max_delta_time := if Qltb (max_delta_time c) delta then delta else max_delta_time c;
     gnss_delay_time := match s_type d with
                        | DATA_TYPE_GNSS => s_time d - s_gpst d
                        | DATA_TYPE_IMU => gnss_delay_time c
                        end |}.

(** DataManager.h:87-99  DataManager; arrays of [max_que_num] = 3 entries as functions *)
Definition max_que_num : nat := 3.
(** DataManager.h:92 imu_que_id *)
Definition imu_que_id : nat := 0.
(** DataManager.h:93 gnss_que_id *)
Definition gnss_que_id : nat := 1.
(** DataManager.h:87-99 DataManager *)
Record manager := {
  que : nat -> list sample; position : nat -> nat; que_num : nat; check : checker }.
(** assignment to an element of an array *)
Definition upd {A} (f : nat -> A) (i : nat) (v : A) : nat -> A :=
  fun j => if Nat.eqb j i then v else f j.

(** DataManager.cpp:56-63  constructor *)
Definition new_manager : manager :=
  {| que := fun _ => []; position := fun _ => 0%nat; que_num := 0; check := new_checker |}.

(** DataManager.cpp:29-41  AddFile(GnssConfig): [samples] is what the reader delivered *)
Definition add_gnss (enable : bool) (samples : list sample) (m : manager) : manager :=
  if enable then
    {| que := upd (que m) gnss_que_id (que m gnss_que_id ++ samples);
       position := position m; que_num := S (que_num m); check := check m |}
  else m.
(** DataManager.cpp:43-54  AddFile(IMUConfig) *)
Definition add_imu (samples : list sample) (m : manager) : manager :=
  {| que := upd (que m) imu_que_id (que m imu_que_id ++ samples);
     position := position m; que_num := S (que_num m); check := check m |}.

(** outcome of a call: undefined behaviour is explicit *)
Inductive outcome (A : Type) := Done (a : A) | Undefined.
Arguments Done {A} a. Arguments Undefined {A}.

(** DataManager.cpp:16-22  head times of queues [i, i+n); [None] when one is exhausted *)
Fixpoint heads (m : manager) (i n : nat) : option (list Q) :=
  match n with
  | O => Some []
  | S k => match nth_error (que m i) (position m i) with
           | Some s => match heads m (S i) k with Some l => Some (s_time s :: l) | None => None end
           | None => None
           end
  end.

(** DataManager.cpp:14-27  GetNextData; [None]: null pointer.  More than three queues
    overrun the arrays; with no queue at all [que[0][position[0]]] may not exist. *)
Definition get_next (m : manager) : outcome (option sample * manager) :=
  if Nat.ltb max_que_num (que_num m) then Undefined else
  match heads m 0 (que_num m) with
  | None => Done (None, m)
  | Some t =>
    let sel := argmin t in
    match nth_error (que m sel) (position m sel) with
    | None => Undefined
    | Some d =>
      Done (Some d,
            {| que := que m; position := upd (position m) sel (S (position m sel));
               que_num := que_num m; check := check_update d (check m) |})
    end
  end.

(** the reading loop of PostDataFusion.cpp:65-95 as seen from the manager: take up to [n]
    samples, stop at the first null pointer; gives the samples and whether the end was reported *)
Fixpoint take (n : nat) (m : manager) : outcome (list sample * bool * manager) :=
  match n with
  | O => Done ([], false, m)
  | S k => match get_next m with
           | Undefined => Undefined
           | Done (None, m') => Done ([], true, m')
           | Done (Some d, m') =>
             match take k m' with
             | Undefined => Undefined
             | Done (l, e, m'') => Done (d :: l, e, m'')
             end
           end
  end.

(** DataManager.cpp:67-73  MoveToTime, [n] bounds the number of turns; [None]: not finished *)
Fixpoint move_to_time (n : nat) (target : Q) (m : manager) : option (outcome manager) :=
  match n with
  | O => None
  | S k => match get_next m with
           | Undefined => Some Undefined
           | Done (None, m') => Some (Done m')
           | Done (Some d, m') =>
             if Qltb (s_time d) target then move_to_time k target m' else Some (Done m')
           end
  end.

(** DataManager.cpp:75-79  Reset *)
Definition reset (m : manager) : manager :=
  {| que := que m; position := fun _ => 0%nat; que_num := que_num m; check := check m |}.

(** DataManager.cpp:81-83  GetProgress: integer division, undefined for an empty queue *)
Definition get_progress (m : manager) : outcome nat :=
  match length (que m imu_que_id) with
  | O => Undefined
  | S _ => Done (100 * position m imu_que_id / length (que m imu_que_id))%nat
  end.
