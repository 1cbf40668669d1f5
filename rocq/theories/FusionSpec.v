(** What the properties of the filter talk about. *)
From Coq Require Import Reals ZArith List.
From Verif Require Import RealMath ConvertSpec SmoothModel InsModel FusionBase FusionModel.
Import ListNotations.
Local Open Scope R_scope.

(** the IMU samples of a history *)
Fixpoint samples (cs : list call) : list imu :=
  match cs with [] => [] | CallImu x :: r => x :: samples r | _ :: r => samples r end.
(** number of IMU samples *)
Definition epochs (cs : list call) : Z := Z.of_nat (length (samples cs)).

(** the modes of a usable fix, as in NMEA: single point, differential, RTK fixed, RTK float *)
Definition fix_mode (m : Z) : bool :=
  match m with 1%Z | 2%Z | 4%Z | 5%Z => true | _ => false end.
Lemma mode_rule g : gnss_check g = fix_mode (g_mode g).
Proof.
  unfold gnss_check. destruct (g_mode g) as [|p|p]; try reflexivity.
  do 3 (destruct p as [p|p|]; try reflexivity).
Qed.
(** bit b of the sensor word of the solution: 1 GNSS, 3 zero velocity, 4 non-holonomic, 7 height *)
Definition sensor (s : fusion) (b : nat) : bool := Nat.testbit (n_sensors (s_nav (f_ins s))) b.
(** the height of the last accepted fix of a history, and the barometric heights that came after it, oldest first *)
Fixpoint since_fix (cs : list call) (acc : option R * list R) : option R * list R :=
  match cs with
  | [] => acc
  | CallGnss g :: r => since_fix r (if fix_mode (g_mode g) then (Some (g_height g), []) else acc)
  | CallHeight h :: r => since_fix r (fst acc, snd acc ++ [h])
  | _ :: r => since_fix r acc
  end.
(** the vector with north, east and down components v at a place, in earth axes *)
Definition local_vector (lat lon : R) (v : vec) : vec :=
  vadd (vscale (vx v) (north lat lon)) (vadd (vscale (vy v) (east lat lon)) (vscale (- vz v) (up lat lon))).
