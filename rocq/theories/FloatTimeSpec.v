(** Specification of the time statistics: the mathematical gaps between consecutive samples. *)
From Coq Require Import Reals List.
From Verif Require Import FloatSpec.
Import ListNotations.
Open Scope R_scope.

Fixpoint gaps (prev : R) (ts : list R) : list R :=
  match ts with [] => [] | t :: r => (t - prev) :: gaps t r end.
(** every sample is a double and no sample is more than twice, or less than half, the one before *)
Fixpoint steady (prev : R) (ts : list R) : Prop :=
  match ts with [] => True | t :: r => b64 t /\ prev / 2 <= t <= 2 * prev /\ steady t r end.
Definition sum (l : list R) : R := fold_right Rplus 0 l.
Definition largest (l : list R) : R := fold_left Rmax l 0.
