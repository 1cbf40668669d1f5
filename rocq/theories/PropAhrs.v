(** Property C109: the attitude-only filter at rest. *)
From Coq Require Import Reals ZArith List Lra.
From Verif Require Import RealMath SmoothModel ConvertModel AhrsModel AhrsProofs AhrsLevel.
Import ListNotations.
Open Scope R_scope.

(** ** C109: refuted for the library's own axes (forward, right, down: gravity is felt as a negative specific force along the third
    axis): whatever the error the pitch starts with, the filter of a level unit at rest makes it larger at every sample, past any
    angle up to 7/5 rad (80 degrees). *)
Theorem C109_levels_REFUTED : forall ts f p0 b xs, 0 < ts <= 1 -> f < - (1 / 2) -> (forall k, at_rest ts f (xs k)) ->
  0 < p0 -> p0 <= b <= 7 / 5 ->
  exists n p, pitch_of (levelled ts p0 xs n) = Fin p /\ b < p < PI / 2 /\
    forall m, (m < n)%nat -> exists p1 p2, pitch_of (levelled ts p0 xs m) = Fin p1 /\ pitch_of (levelled ts p0 xs (S m)) = Fin p2 /\ p1 < p2.
Proof. exact tips_over. Qed.
Print Assumptions C109_levels_REFUTED.

(** the part that holds: with the third axis up it levels itself, the pitch getting smaller at every sample until it is below any
    positive angle; it does not overshoot by more than 0.15 rad *)
Theorem C109_axis_up_partial : forall ts f p0 b xs, 0 < ts <= 1 -> 1 / 2 < f -> (forall k, at_rest ts f (xs k)) ->
  0 < b -> b <= p0 <= 7 / 5 ->
  exists n p, pitch_of (levelled ts p0 xs n) = Fin p /\ - (15 / 100) < p < b /\
    forall m, (m < n)%nat -> exists p1 p2, pitch_of (levelled ts p0 xs m) = Fin p1 /\ pitch_of (levelled ts p0 xs (S m)) = Fin p2 /\ p2 < p1.
Proof. exact levels_up. Qed.
Print Assumptions C109_axis_up_partial.

(** a hundred samples a second under standard gravity: an error of a thousandth of a radian becomes one of more than a radian *)
Example C109_case : exists n p, pitch_of (levelled (1 / 100) (1 / 1000) (fun k => Imu (INR k / 100) vzero (V 0 0 (- (98 / 1000)))) n) = Fin p /\ 1 < p.
Proof.
  destruct (C109_levels_REFUTED (1 / 100) (- (98 / 10)) (1 / 1000) 1 (fun k => Imu (INR k / 100) vzero (V 0 0 (- (98 / 1000)))))
    as (n & p & A & B & _); try lra.
  - intros k. split; [reflexivity|]. simpl. f_equal. lra.
  - exists n, p. split; [exact A|lra].
Qed.
