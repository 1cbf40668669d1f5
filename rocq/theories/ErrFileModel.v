(** Model of the file that ErrorAnalyser.analyse writes, target_file + ".err.csv" (Tools/ErrorAnalyser.py:221-235), with column_index
    0 to 10 and no offset: the header and the numbers; how pandas prints a number is left out. *)
From Coq Require Import Reals List String.
From Verif Require Import EvalModel.
Import ListNotations.
Open Scope R_scope.

(** Tools/ErrorAnalyser.py:232-234: the header *)
Definition err_names : list string :=
  ["week"; "gpst"; "lat"; "lon"; "h"; "vx"; "vy"; "vz"; "roll"; "pitch"; "yaw"; "2d"; "3d"]%string.
(** Tools/ErrorAnalyser.py:223-231: one row; column 0 stays zero; self.errs[column_index[i]] for i from 2 to 10; the error of
    error_2d and error_3d is None when the analysis was not asked for it, which numpy stores as not a number *)
Definition err_cells (_2d _3d : bool) (ref : list row) (r : row) : list sample :=
  [Val 0; Val (r_t r); err_2 ref r; err_3 ref r; err_plain r_h ref r; err_plain r_v0 ref r; err_plain r_v1 ref r; err_plain r_v2 ref r;
   err_plain r_roll ref r; err_plain r_pitch ref r; err_yaw ref r;
   if _2d then err_2d ref r else NotANumber; if _3d then err_3d ref r else NotANumber].
(** Tools/ErrorAnalyser.py:137-142 and 221-235: the rows of the file; [None]: no common time, and nothing is written *)
Definition err_file (_2d _3d : bool) (target ref : list row) : option (list (list sample)) :=
  match common target ref with [] => None | l => Some (map (err_cells _2d _3d ref) l) end.
