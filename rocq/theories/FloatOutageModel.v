(** Model of Src/Outage.cpp in machine arithmetic: the same code as OutageModel.v, with every
    [double] sum rounded to nearest.  The arguments are finite [float]s ([b32]), so no intermediate
    value can overflow: a start is smaller than [stop], which is below 2^128.
    Simplification: the build's -Ofast may reassociate the sums; the model rounds each sum as written.
    (Theorem C102_exact shows that in the practical range no sum is rounded at all.) *)
From Coq Require Import Reals List Bool.
From Verif Require Import FloatSpec.
Import ListNotations.
Open Scope R_scope.

(** < on doubles that are finite *)
Definition ltb (a b : R) : bool := if Rlt_dec a b then true else false.
(** <= on doubles that are finite *)
Definition leb (a b : R) : bool := if Rle_dec a b then true else false.

(** Outage.h:16-18 *)
Record foutage := { fo_starts : list R; fo_length : R; fo_enable : bool }.

(** Outage.cpp:17-20  for (double i = start; i < stop;) { starts.push_back(i); i += step; } ;
    [None]: not finished after [fuel] turns *)
Fixpoint fgen_starts (fuel : nat) (i stop step : R) : option (list R) :=
  match fuel with
  | O => None
  | S k => if ltb i stop
           then match fgen_starts k (rn (i + step)) stop step with
                | Some l => Some (i :: l)
                | None => None
                end
           else Some []
  end.

(** Outage.cpp:11-21  Outage(start, stop, outage, step) *)
Definition fnew_outage (fuel : nat) (start stop len step : R) : option foutage :=
  if (ltb stop start && ltb 0 stop) || ltb len 0 || ltb step len
  then Some {| fo_starts := []; fo_length := len; fo_enable := false |}
  else match fgen_starts fuel start stop step with
       | Some l => Some {| fo_starts := l; fo_length := len; fo_enable := true |}
       | None => None
       end.

(** Outage.cpp:26-36  IsOutage: [s + outage] is a double sum *)
Fixpoint fscan_starts (l : list R) (len gpst : R) : bool :=
  match l with
  | [] => false
  | s :: r => if leb gpst (rn (s + len)) then leb s gpst else fscan_starts r len gpst
  end.
(** Outage.cpp:26-36 IsOutage *)
Definition fis_outage (o : foutage) (gpst : R) : bool :=
  if negb (fo_enable o) then false else fscan_starts (fo_starts o) (fo_length o) gpst.
