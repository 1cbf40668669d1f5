(** What a file of results says, and the wheel speeds that belong to it. *)
From Coq Require Import QArith List ZArith Reals Qreals.
From Verif Require Import RealMath ConvertModel FusionBase StreamModel.
Import QArith ListNotations.

(** the word w is the number q *)
Definition denotes (w : word) (q : Q) : Prop :=
  match w with Whole z => q = inject_Z z | Part _ p _ => q = p | Frac p => q = p | Junk => False end.

(** a result: week, time, place (latitude, longitude, height), velocity (north, east, down), attitude (roll, pitch, heading, degrees) *)
Record nav_row := NavRow { nr_week : Z; nr_time : Q; nr_place : Q * Q * Q; nr_v : Q * Q * Q; nr_a : Q * Q * Q }.
(** its numbers in the order of the columns *)
Definition numbers (r : nav_row) : list Q :=
  let '(a, b, c) := nr_place r in let '(d, e, f) := nr_v r in let '(g, h, i) := nr_a r in
  [nr_time r; a; b; c; d; e; f; g; h; i].
(** a line with these eleven columns *)
Definition eleven (r : nav_row) (ws : list word) : Prop := exists l, ws = Whole (nr_week r) :: l /\ Forall2 denotes l (numbers r).

(** three columns as a vector *)
Definition qvec (t : Q * Q * Q) : vec := let '(x, y, z) := t in V (Q2R x) (Q2R y) (Q2R z).
(** degrees as radians *)
Definition radians (v : vec) : vec := V (vx v * deg) (vy v * deg) (vz v * deg).
(** the velocity of a result in the axes of the vehicle, A turning the axes of the unit into those of the vehicle *)
Definition vehicle_velocity (A : mat) (r : nav_row) : vec :=
  mvec A (mvec (mtrans (euler_to_dcm (radians (qvec (nr_a r))))) (qvec (nr_v r))).

(** a number printed with decimals: what an int takes of it, all of it, and what it leaves *)
Record decimals := Decimals { d_int : Z; d_all : Q; d_frac : Q }.
(** the word; what is left begins with the point, so it is a number from 0 to below 1 *)
Definition word_of (d : decimals) : word := Part (d_int d) (d_all d) (Frac (d_frac d)).
(** what is left of a number with decimals lies between 0 and 1 *)
Definition proper (d : decimals) : Prop := (0 <= d_frac d)%Q /\ (d_frac d < 1)%Q.
(** a result line as the library writes it: week, sixteen numbers with decimals (time, place, velocity, attitude, the two biases), the
    solution type and the sensors *)
Record full_row := FullRow { fr_week : Z; fr_time : decimals; fr_place : decimals * decimals * decimals; fr_v : decimals * decimals * decimals;
  fr_a : decimals * decimals * decimals; fr_gb : decimals * decimals * decimals; fr_ab : decimals * decimals * decimals;
  fr_mode : Z; fr_sensors : Z }.
(** three columns *)
Definition three (t : decimals * decimals * decimals) : list word := let '(a, b, c) := t in [word_of a; word_of b; word_of c].
(** its nineteen columns (App/AppCommon/FileIO.cpp:52-71, C89) *)
Definition nineteen (r : full_row) : list word :=
  [Whole (fr_week r); word_of (fr_time r)] ++ three (fr_place r) ++ three (fr_v r) ++ three (fr_a r) ++ three (fr_gb r) ++ three (fr_ab r) ++
  [Whole (fr_mode r); Whole (fr_sensors r)].

(** the line that belongs to a result: the time, the speed ahead divided by a scale factor, and the speeds down and to the right, of a
    vehicle whose axes have the angles [angles] to those of the unit *)
Definition speed_ahead (angles atti vn : vec) : R := vx (mvec (euler_to_dcm angles) (mvec (mtrans (euler_to_dcm (radians atti))) vn)).
(** roll, pitch and heading of three, two and four degrees *)
Definition three_two_four : vec := V (3 * deg) (2 * deg) (4 * deg).
(** the velocity of a unit with attitude [atti] (degrees) in a vehicle with angles [angles] to it that moves straight ahead at speed v *)
Definition straight (angles atti : vec) (v : R) : vec :=
  mvec (euler_to_dcm (radians atti)) (mvec (mtrans (euler_to_dcm angles)) (V v 0 0)).
