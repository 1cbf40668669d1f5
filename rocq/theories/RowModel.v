(** Model of NavWriter::ConvertNavToDouble (App/AppCommon/FileIO.cpp:152-171): the rows of a result matrix.
    Numbers are finite reals; the casts between RgioeFloatType and double are identities. *)
From Coq Require Import Reals List.
From Verif Require Import RealMath EarthModel FusionBase.
Import ListNotations.
Open Scope R_scope.

(** Src/RgioeDataType.h:113-131 NavOutput, the members that are read; degrees as in the results *)
Record nav_result := {
  nr_time : R; nr_lat : R; nr_lon : R; nr_height : R;
  nr_vn : vec; nr_atti : vec; nr_pos_std : vec; nr_vn_std : vec; nr_atti_std : vec }.

(** a vector as the three entries written in a row *)
Definition entries (v : vec) : list R := [vx v; vy v; vz v].

(** FileIO.h:51-60 NavDoubleList in the order of its members, filled as in FileIO.cpp:152-171; [base_position] is {0, 0, 0} *)
Definition nav_row (n : nav_result) : list R :=
  let d := distance4 (nr_lat n * deg) (nr_lon n * deg) (0 * deg) (0 * deg) in
  [nr_time n; nr_lat n; nr_lon n; nr_height n; vy d; vx d] ++
  entries (nr_vn n) ++ entries (nr_atti n) ++ entries (nr_pos_std n) ++ entries (nr_vn_std n) ++ entries (nr_atti_std n).
