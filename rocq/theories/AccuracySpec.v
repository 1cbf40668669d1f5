(** What a reported accuracy is. *)
From Coq Require Import Reals.
From mathcomp Require Import all_ssreflect ssralg matrix.
From Verif Require Import Rfield RealMath FusionBase FusionModel KalmanSpec.
Local Open Scope ring_scope.

(** the variance of state i, for the covariance p *)
Definition state_variance (p : 'M[R]_15) (i : nat) : R := variance p (delta_mx (inord i) ord0).
(** v holds the standard deviations of the states i, i+1 and i+2 *)
Definition deviations (v : vec) (p : 'M[R]_15) (i : nat) : Prop := forall k, (k < 3)%N ->
  Rle 0 (coord v k) /\ Rmult (coord v k) (coord v k) = state_variance p (i + k).
