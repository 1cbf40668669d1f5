(** The attitude that a history of samples and corrections stands for, with exact rotations. *)
From Coq Require Import Reals List.
From Verif Require Import RealMath EarthModel ConvertModel ConvertSpec SmoothModel InsModel JacobianSpec.
Import ListNotations.
Open Scope R_scope.

(** in the step from s to t: the turn of the body, as rotation vector with the coning correction, and the turn of the local axes *)
Definition body_turn (s t : ins) : vec := gyro_to_rv (s_gyro_pre t) (s_gyro_pre s).
Definition level_turn (t : ins) : vec := vscale (s_dt t) (vadd (s_wie t) (s_wen t)).
(** the turn a correction stands for *)
Definition correction_turn (s : ins) (x : err) : vec :=
  vadd (x_att x) (frame_turn (vx (n_pos (s_nav s))) (vz (n_pos (s_nav s))) (x_pos x)).
(** one step of the attitude with exact quaternions *)
Definition exact_turn (s t : ins) (o : ins_op) (e : quat) : quat :=
  match o with
  | OpSample _ => qmul (qmul (qconj (exact_quaternion (level_turn t))) e) (exact_quaternion (body_turn s t))
  | OpCorrect x => qmul (exact_quaternion (correction_turn s x)) e
  end.
Fixpoint exact_attitude (s : ins) (ops : list ins_op) (e : quat) : quat :=
  match ops with
  | [] => e
  | o :: r => match ins_do s o with Some t => exact_attitude t r (exact_turn s t o e) | None => e end
  end.
(** the turns of all steps *)
Definition turns (s t : ins) (o : ins_op) : list vec :=
  match o with OpSample _ => [level_turn t; body_turn s t] | OpCorrect x => [correction_turn s x] end.
Fixpoint all_turns (s : ins) (ops : list ins_op) : list vec :=
  match ops with
  | [] => []
  | o :: r => match ins_do s o with Some t => turns s t o ++ all_turns t r | None => [] end
  end.
(** what a turn may add to the error *)
Definition turn_error (v : vec) : R := (vnorm v / 2) ^ 8 / 9000.
Definition sum_errors (l : list vec) : R := fold_right Rplus 0 (map turn_error l).
