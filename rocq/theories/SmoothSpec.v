(** Running mean and running variance of a series of numbers with a window of w samples: the first w samples have
    equal weight, afterwards a new sample has the weight 1/w. *)
From Coq Require Import Reals ZArith List.
From Verif Require Import RealMath SmoothModel.
Import ListNotations.
Open Scope R_scope.

Fixpoint running (w seen : Z) (mean var : R) (xs : list R) : R * R :=
  match xs with
  | [] => (mean, var)
  | x :: r =>
      let n := IZR (Z.min (seen + 1) w) in
      let mean' := mean + (x - mean) / n in
      let var' := var + ((x - mean') ^ 2 - var) / n in
      running w (seen + 1) mean' var' r
  end.
Definition running_mean (w : Z) (xs : list R) : R := fst (running w 0 0 0 xs).
Definition running_var (w : Z) (xs : list R) : R := snd (running w 0 0 0 xs).
(** spread of the specific force: root of the summed variances of the three axes *)
Definition spread (w : Z) (h : list imu) : R :=
  sqrt (running_var w (map (fun x => vx (i_acce x)) h) + running_var w (map (fun x => vy (i_acce x)) h)
        + running_var w (map (fun x => vz (i_acce x)) h)).
