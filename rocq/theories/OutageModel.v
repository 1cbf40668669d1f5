(** Model of Src/Outage.cpp / Outage.h: simulated GNSS outages.
    Simplification: [float]/[double] values are finite numbers, represented by rationals; the
    sums [i += step] and [s + outage] are exact (they are in double precision for 24-bit
    arguments of comparable magnitude). *)
From Coq Require Import QArith List Bool.
From Verif Require Import MergeModel.
Import ListNotations.

(** Outage.h:16-18 *)
Record outage := { o_starts : list Q; o_length : Q; o_enable : bool }.

(** Outage.cpp:17-20  the loop of the constructor; [None]: not finished after [fuel] turns *)
Fixpoint gen_starts (fuel : nat) (i stop step : Q) : option (list Q) :=
  match fuel with
  | O => None
  | S k => if Qltb i stop
           then match gen_starts k (i + step) stop step with
                | Some l => Some (i :: l)
                | None => None
                end
           else Some []
  end.

(** Outage.cpp:11-21  Outage(start, stop, outage, step) *)
Definition new_outage (fuel : nat) (start stop len step : Q) : option outage :=
  if (Qltb stop start && Qltb 0 stop) || Qltb len 0 || Qltb step len
  then Some {| o_starts := []; o_length := len; o_enable := false |}
  else match gen_starts fuel start stop step with
       | Some l => Some {| o_starts := l; o_length := len; o_enable := true |}
       | None => None
       end.
(** Outage.cpp:38-41 *)
Definition default_outage : outage := {| o_starts := []; o_length := 0; o_enable := false |}.

(** Outage.cpp:26-36  IsOutage *)
Fixpoint scan_starts (l : list Q) (len gpst : Q) : bool :=
  match l with
  | [] => false
  | s :: r => if Qle_bool gpst (s + len) then Qle_bool s gpst else scan_starts r len gpst
  end.
(** Outage.cpp:26-36 IsOutage *)
Definition is_outage (o : outage) (gpst : Q) : bool :=
  if negb (o_enable o) then false else scan_starts (o_starts o) (o_length o) gpst.
