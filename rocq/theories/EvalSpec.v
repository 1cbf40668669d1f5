(** What the comparison of a solution with a reference is meant to say. *)
From Coq Require Import Reals List Sorted.
From Verif Require Import EarthModel EvalModel.
Import ListNotations.
Open Scope R_scope.

(** the same angle, in degrees *)
Definition same_angle (a b : R) : Prop := exists k : Z, a - b = 360 * IZR k.
(** the times of the reference ascend *)
Definition ascending (ref : list row) : Prop := StronglySorted Rlt (map r_t ref).
(** a and b are neighbours in the reference, t is behind a and not behind b *)
Definition around (ref : list row) (a b : row) (t : R) : Prop := (exists pre post, ref = pre ++ a :: b :: post) /\ r_t a < t <= r_t b.
(** how much of the way from a to b is done at t *)
Definition part (a b : row) (t : R) : R := (t - r_t a) / (r_t b - r_t a).
Definition at_time (f : row -> R) (a b : row) (t : R) : R := f a + (f b - f a) * part a b t.

(** east, north and up of the solution with respect to the reference, metres on the ellipsoid *)
Definition east_of (a b r : row) : R :=
  let lat := at_time r_lat a b (r_t r) in (r_lon r - at_time r_lon a b (r_t r)) * (PI / 180) * (RN (lat * (PI / 180)) * cos (lat * (PI / 180))).
Definition north_of (a b r : row) : R := (r_lat r - at_time r_lat a b (r_t r)) * (PI / 180) * RM (r_lat r * (PI / 180)).
Definition above (a b r : row) : R := r_h r - at_time r_h a b (r_t r).

(** number of errors not above x, below x *)
Definition not_above (x : R) (l : list R) : R := INR (length (filter (fun e => if Rle_dec e x then true else false) l)).
Definition below (x : R) (l : list R) : R := INR (length (filter (fun e => if Rlt_dec e x then true else false) l)).
(** lo and hi are the smallest and the largest *)
Definition extremes (lo hi : R) (l : list R) : Prop := In lo l /\ In hi l /\ forall x, In x l -> lo <= x <= hi.
(** width of one of n bins between them *)
Definition width (lo hi : R) (n : nat) : R := if Req_EM_T lo hi then 1 / INR n else (hi - lo) / INR n.
(** more than 68.26 % of the errors are in the first bin *)
Definition crowded (lo hi : R) (n : nat) (l : list R) : Prop := lo < hi /\ 6826 / 10000 * INR (length l) < below (lo + width lo hi n) l.
(** the horizontal and the spatial error of a row, as meant *)
Definition horizontal (ref : list row) (r : row) (e : R) : Prop :=
  exists a b, around ref a b (r_t r) /\ e = sqrt (east_of a b r ^ 2 + north_of a b r ^ 2).
Definition spatial (ref : list row) (r : row) (e : R) : Prop :=
  exists a b, around ref a b (r_t r) /\ e = sqrt (east_of a b r ^ 2 + north_of a b r ^ 2 + above a b r ^ 2).
(** the sum of the squares *)
Fixpoint squares (l : list R) : R := match l with [] => 0 | x :: r => x * x + squares r end.
