(** Notions used to state C84. The sensor word of a result (Src/RgioeDataType.h:60-75): bit 0 IMU, 1 GNSS, 2 odometer,
    3 zero velocity, 4 non-holonomic, 7 barometer. *)
From Verif Require Import FusionBase FusionModel.

(** the last fix of a history; [d] before the first one *)
Fixpoint last_fix (cs : list call) (d : option gnss) : option gnss :=
  match cs with nil => d | cons (CallGnss g) r => last_fix r (Some g) | cons _ r => last_fix r d end.

(** a wheel speed was given somewhere in the history *)
Definition has_speed (cs : list call) : bool := List.existsb (fun c => match c with CallVel _ => true | _ => false end) cs.
