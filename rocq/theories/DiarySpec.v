(** What the properties of the recording (DiaryModel) talk about. *)
From Coq Require Import Reals ZArith List.
From Verif Require Import RealMath SmoothModel ConvertModel FusionBase AlignModel AhrsModel ApiModel DiaryModel.
Import ListNotations.
Local Open Scope R_scope.

(** the recorded samples: time, specific force, rotation *)
Fixpoint imu_part (l : list msg) : list (R * vec * vec) :=
  match l with [] => [] | MImu t a g :: r => (t, a, g) :: imu_part r | _ :: r => imu_part r end.
(** the recorded biases *)
Fixpoint bias_part (l : list msg) : list (R * option (vec * vec)) :=
  match l with [] => [] | MKalman t b :: r => (t, b) :: bias_part r | _ :: r => bias_part r end.
(** the recorded fixes: time, place, mode *)
Fixpoint fix_part (l : list msg) : list (R * option vec * Z) :=
  match l with [] => [] | MGnss t p m :: r => (t, p, m) :: fix_part r | _ :: r => fix_part r end.
(** the recorded innovations *)
Fixpoint inno_part (l : list msg) : list (R * option vec * vec) :=
  match l with [] => [] | MMeas t z v :: r => (t, z, v) :: inno_part r | _ :: r => inno_part r end.

(** the recorded attitudes of the attitude-only filter *)
Fixpoint atti_part (l : list msg) : list (R * option vec) :=
  match l with [] => [] | MAhrs t a :: r => (t, a) :: atti_part r | _ :: r => atti_part r end.
(** one record for each sample: its time, and the attitude in degrees an attitude-only filter (AhrsModel) has after it *)
Fixpoint tracked (h : ahrs) (xs : list imu) : list (R * option vec) :=
  match xs with
  | [] => []
  | x :: r => let h' := ahrs_imu h x in
      (i_gpst x, match euler_vec (ahrs_atti h') with Some e => Some (V (vx e * 180 / PI) (vy e * 180 / PI) (vz e * 180 / PI)) | None => None end) :: tracked h' r
  end.

(** a sample as it was handed over *)
Definition as_given (x : imu) : R * vec * vec := (i_gpst x, i_acce x, i_gyro x).
(** each fix of a history with the time of the last sample before it, from the first sample on *)
Fixpoint fixes_at (t : option R) (cs : list api_call) : list (R * gnss) :=
  match cs with
  | [] => []
  | ATime (Some x) :: r => fixes_at (Some (i_gpst x)) r
  | AGnss (Some g) :: r => match t with Some t => (t, g) :: fixes_at (Some t) r | None => fixes_at None r end
  | _ :: r => fixes_at t r
  end.
(** a place in degrees and metres as a fix *)
Definition place_fix (lat lon h : R) : gnss := Gnss lat lon h vzero 0 0.
(** a device just initialised with a given state *)
Definition started (y : diary) (ao : api_option) (p : pva) : Prop :=
  exists y0 j, o_align_mode (ao_rest ao) = ALIGN_USE_GIVEN /\ diary_do y0 (AInit j (Some ao) (Some p)) = Some (y, []).
(** a device just initialised to align itself *)
Definition started_aligning (y : diary) (ao : api_option) : Prop :=
  exists y0 j n, o_align_mode (ao_rest ao) <> ALIGN_USE_GIVEN /\ diary_do y0 (AInit j (Some ao) n) = Some (y, []).
