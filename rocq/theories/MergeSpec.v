(** Specification vocabulary for the merge of sensor streams. *)
From Coq Require Import QArith List Sorted.
From Verif Require Import MergeModel.
Import ListNotations.

(** ** the manager as the application builds it (PostDataFusion.cpp:56-58) *)
Definition streams (imu gnss : list sample) : nat -> list sample :=
  fun i => match i with O => imu | S O => gnss | _ => [] end.
Definition built (gnss_enabled : bool) (imu gnss : list sample) : manager :=
  add_imu imu (add_gnss gnss_enabled gnss new_manager).

(** times do not decrease *)
Definition time_ordered (l : list sample) : Prop := StronglySorted (fun a b => s_time a <= s_time b) l.

(** elements of [l] labelled [i] by the parallel list [who] *)
Fixpoint from_stream {A} (i : nat) (who : list nat) (l : list A) : list A :=
  match who, l with
  | w :: ws, x :: xs => if Nat.eqb w i then x :: from_stream i ws xs else from_stream i ws xs
  | _, _ => []
  end.

(** [l] is an interleaving of the first [cnt i] samples of each stream [q i], [i < n] *)
Definition interleaves (n : nat) (q : nat -> list sample) (cnt : nat -> nat)
    (who : list nat) (l : list sample) : Prop :=
  length who = length l /\ Forall (fun w => (w < n)%nat) who /\
  forall i, (i < n)%nat -> from_stream i who l = firstn (cnt i) (q i) /\ (cnt i <= length (q i))%nat.

(** among equal times, the stream with the lower number comes first *)
Definition ties_by_stream (who : list nat) (l : list sample) : Prop :=
  forall a b x y wx wy, (a < b)%nat -> nth_error l a = Some x -> nth_error l b = Some y ->
    nth_error who a = Some wx -> nth_error who b = Some wy -> s_time x == s_time y -> (wx <= wy)%nat.

(** usable streams: time ordered, all times below INT_MAX seconds *)
Definition usable (n : nat) (q : nat -> list sample) : Prop :=
  forall i, (i < n)%nat -> time_ordered (q i) /\ Forall (fun s => s_time s < INT_MAX) (q i).

(** rational mean and maximum *)
Fixpoint Qsum (l : list Q) : Q := match l with [] => 0 | x :: r => x + Qsum r end.
(** time differences of consecutive samples; the first is 0 *)
Fixpoint gaps_from (t : Q) (l : list sample) : list Q :=
  match l with [] => [] | s :: r => (s_time s - t) :: gaps_from (s_time s) r end.
Definition gaps (l : list sample) : list Q :=
  match l with [] => [] | s :: r => 0 :: gaps_from (s_time s) r end.
