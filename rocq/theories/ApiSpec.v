(** What the properties of the C interface talk about. *)
From Coq Require Import Reals ZArith List.
From Verif Require Import RealMath EarthModel SmoothModel SmoothSpec InsModel FusionBase AlignModel ApiModel.
Import ListNotations.
Local Open Scope R_scope.

(** order of the statuses *)
Definition rank (s : status) : Z :=
  match s with
  | RGIOE_STATUS_INIT => 0 | RGIOE_STATUS_ALIGN => 1 | RGIOE_STATUS_ATTITUDE => 2 | RGIOE_STATUS_NAVIGATION => 3
  | RGIOE_STATUS_ERROR => -1
  end%Z.
(** calls other than rgioe_init *)
Definition quiet (c : api_call) : Prop := match c with AInit _ _ _ => False | _ => True end.
(** a read-out *)
Definition reads (c : api_call) : Prop :=
  match c with AAtti | APos | AVel | AStatus | AResult _ | ADeinit => True | _ => False end.

(** the IMU samples of a history *)
Fixpoint imus (cs : list api_call) : list imu :=
  match cs with [] => [] | ATime (Some x) :: r => x :: imus r | _ :: r => imus r end.
(** the fixes of a history *)
Fixpoint fixes (cs : list api_call) : list gnss :=
  match cs with [] => [] | AGnss (Some g) :: r => g :: fixes r | _ :: r => fixes r end.
(** the fixes that come after the first IMU sample *)
Fixpoint late_fixes (cs : list api_call) : list gnss :=
  match cs with [] => [] | ATime (Some _) :: r => fixes r | _ :: r => late_fixes r end.

(** the last 201 samples were quiet: spread of the specific force at most 1e-3 after each of them *)
Definition static_now (h : list imu) : Prop :=
  (200 < Z.of_nat (length h))%Z /\ forall j, (Z.of_nat j <= 200)%Z -> spread 30 (firstn (length h - j) h) <= 1 / 1000.
Definition found_static (h : list imu) : Prop := exists k, static_now (firstn k h).

(** length of the displacement between two fixes in metres: north, east and height difference *)
Definition travelled (p g : gnss) : R :=
  let lat := g_lat g * (PI / 180) in let lat0 := g_lat p * (PI / 180) in
  let h := (g_height g + g_height p) / 2 in
  let dn := (lat - lat0) * (RM lat + h) in
  let de := (g_lon g * (PI / 180) - g_lon p * (PI / 180)) * ((RN ((lat + lat0) / 2) + h) * cos ((lat + lat0) / 2)) in
  let dh := g_height g - g_height p in
  sqrt (dn * dn + de * de + dh * dh).
(** two fixes in a row, the first with a non-zero north accuracy, further apart than the threshold and less than 1 km *)
Definition moves (threshold : R) (p g : gnss) : Prop :=
  vx (g_std p) <> 0 /\ threshold < travelled p g < 1000.
Definition found_moving (threshold : R) (fs : list gnss) : Prop :=
  exists l p g r, fs = l ++ p :: g :: r /\ moves threshold p g.

(** read-outs of the solution of the filter *)
Definition solution_read (c : api_call) : Prop := match c with AAtti | APos | AVel => True | _ => False end.
(** a history in which these come only when the status is NAVIGATION *)
Fixpoint reads_late (d : device) (cs : list api_call) : Prop :=
  match cs with
  | [] => True
  | c :: r => (solution_read c -> d_status d = RGIOE_STATUS_NAVIGATION) /\
              match api_do d c with Some (d', _) => reads_late d' r | None => True end
  end.

(** displacement from the first fix to the second in metres: north, east and upwards *)
Definition displacement (p g : gnss) : vec :=
  let lat := g_lat g * (PI / 180) in let lat0 := g_lat p * (PI / 180) in
  let h := (g_height g + g_height p) / 2 in
  V ((lat - lat0) * (RM lat + h))
    ((g_lon g * (PI / 180) - g_lon p * (PI / 180)) * ((RN ((lat + lat0) / 2) + h) * cos ((lat + lat0) / 2)))
    (g_height g - g_height p).
(** a fix at a place away from the poles, with accuracies *)
Definition usable (g : gnss) : Prop :=
  rates_defined (V (g_lat g * (PI / 180)) (g_lon g * (PI / 180)) (g_height g)) = true /\
  vx (g_std g) <> 0 /\ vy (g_std g) <> 0 /\ vz (g_std g) <> 0.
