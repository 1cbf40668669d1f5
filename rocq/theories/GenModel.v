(** Model of Tools/DataGenerator.cpp: wheel speeds computed from a file of results.

    The file is one stream of words (StreamModel); [blank_end]: there is white space, a final newline, behind the last word.
    Numbers read are rational, computed ones real; printing with four decimals is left out. *)
From Coq Require Import QArith List ZArith Bool Reals Qreals.
From Verif Require Import ReaderModel StreamModel RealMath ConvertModel FusionBase.
Import QArith ListNotations.

(** DataGenerator.cpp:16-20: week is an int, the others are floating-point *)
Definition gen_types : list bool := true :: repeat false 10.
(** DataGenerator.cpp:60: the members of nav that are read, before the loop: not initialised *)
Definition gen_init : list (value Q) := repeat Indet 11.
(** DataGenerator.cpp:68-69: the results the loop goes through, one per turn; [prev] is nav before the turn.  End-of-file is set by
    an extraction that runs into the end; on a stream that has failed nothing is extracted.  [Hang]: more than [fuel] turns *)
Fixpoint gen_read (fuel : nat) (blank_end : bool) (prev : list (value Q)) (good : bool) (ws : list word) : result (list (list (value Q))) :=
  match fuel with
  | O => Hang
  | S k =>
    let '(d, good', ws') := StreamModel.extract (combine gen_types prev) good ws in
    let eof := if good then match ws' with [] => if good' then negb blank_end else true | _ => false end else false in
    if eof then Ok [d]
    else match gen_read k blank_end d good' ws' with Ok l => Ok (d :: l) | e => e end
  end.

(** DataGenerator.cpp:68-69,82: the results of the first [n] turns of that loop, of fewer when it ends before *)
Fixpoint gen_turns (n : nat) (blank_end : bool) (prev : list (value Q)) (good : bool) (ws : list word) : list (list (value Q)) :=
  match n with
  | O => []
  | S k =>
    let '(d, good', ws') := StreamModel.extract (combine gen_types prev) good ws in
    let eof := if good then match ws' with [] => if good' then negb blank_end else true | _ => false end else false in
    if eof then [d] else d :: gen_turns k blank_end d good' ws'
  end.
(** DataGenerator.cpp:54-60,68: the loop on the file that is named, [None] when it cannot be opened: line 58 reports this and goes on with
    a stream that has failed but is not at its end *)
Definition gen_loop (fuel : nat) (file : option (bool * list word)) : result (list (list (value Q))) :=
  match file with Some (blank_end, ws) => gen_read fuel blank_end gen_init true ws | None => gen_read fuel true gen_init false [] end.

(** DataGenerator.cpp:62 abv in radians (line 65) *)
Definition gen_angles : vec := V (3 * deg) (2 * deg) (4 * deg).
(** DataGenerator.cpp:63 scale *)
Definition gen_scale : R := (14 / 10)%R.
(** DataGenerator.cpp:66 Cbv *)
Definition gen_Cbv : mat := euler_to_dcm (vneg gen_angles).
(** DataGenerator.cpp:71-74: the velocity in the vehicle frame from attitude (degrees) and velocity *)
Definition gen_velocity (atti vn : vec) : vec :=
  let Cbn := euler_to_dcm (V (vx atti * deg) (vy atti * deg) (vz atti * deg)) in
  mvec gen_Cbv (mvec (mtrans Cbn) vn).
(** DataGenerator.cpp:76-80: a line of the output *)
Record wheel_line := WheelLine { w_time : R; w_forward : R; w_down : R; w_right : R }.
(** DataGenerator.cpp:71-80: the line for a result *)
Definition gen_line (t : Q) (vn atti : vec) : wheel_line :=
  let vv := gen_velocity atti vn in WheelLine (Q2R t) (vx vv / gen_scale) (vz vv) (vy vv).
(** DataGenerator.cpp:71-80 for what is in nav; [None]: a member that was never written is used *)
Definition gen_of (d : list (value Q)) : option wheel_line :=
  match d with
  | [_; Known t; _; _; _; Known v0; Known v1; Known v2; Known a0; Known a1; Known a2] =>
    Some (gen_line t (V (Q2R v0) (Q2R v1) (Q2R v2)) (V (Q2R a0) (Q2R a1) (Q2R a2)))
  | _ => None
  end.
(** DataGenerator.cpp:61,67,75,81: skip = 10, cnt counts the turns *)
Fixpoint gen_write (cnt : nat) (ds : list (list (value Q))) : option (list wheel_line) :=
  match ds with
  | [] => Some []
  | d :: r =>
    match gen_of d, gen_write (S cnt) r with
    | Some w, Some l => Some (if Nat.eqb (Nat.modulo cnt 10) 0 then w :: l else l)
    | _, _ => None
    end
  end.
(** DataGenerator.cpp:68-82: the whole loop *)
Definition generate (fuel : nat) (blank_end : bool) (ws : list word) : result (list wheel_line) :=
  match gen_read fuel blank_end gen_init true ws with
  | Ok ds => match gen_write 0 ds with Some l => Ok l | None => Undef end
  | Undef => Undef
  | Hang => Hang
  end.
