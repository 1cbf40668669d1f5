(** Specification vocabulary for simulated outages. *)
From Coq Require Import QArith List.
Open Scope Q_scope.

(** [t] lies in a window of the periodic plan *)
Definition in_window (start stop len step t : Q) : Prop :=
  exists k : nat, let s := start + inject_Z (Z.of_nat k) * step in
    s < stop /\ s <= t /\ t <= s + len.
(** the plan the user gave is taken as valid *)
Definition valid_plan (start stop len step : Q) : Prop :=
  ~ (stop < start /\ 0 < stop) /\ 0 <= len /\ len <= step.

