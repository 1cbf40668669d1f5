(** Small corrections: what changes, to first order. *)
From Coq Require Import Reals.
From Verif Require Import RealMath EarthModel ConvertModel ConvertSpec SmoothModel InsModel InsRest FusionBase.
Open Scope R_scope.

(** a value that depends on a small number e starts at v0 and changes by dv per unit of e *)
Definition vderive (g : R -> vec) (dv : vec) : Prop :=
  derivable_pt_lim (fun e => vx (g e)) 0 (vx dv) /\ derivable_pt_lim (fun e => vy (g e)) 0 (vy dv) /\
  derivable_pt_lim (fun e => vz (g e)) 0 (vz dv).
Definition moves (f : R -> option vec) (v0 dv : vec) : Prop :=
  exists g : R -> vec, (exists r, 0 < r /\ forall e, Rabs e < r -> f e = Some (g e)) /\ g 0 = v0 /\ vderive g dv.

(** the e-th part of an estimate *)
Definition err_scale (e : R) (x : err) : err :=
  Err (vscale e (x_pos x)) (vscale e (x_vel x)) (vscale e (x_att x)) (vscale e (x_gb x)) (vscale e (x_ab x)).
(** a value computed from the navigation state after the e-th part of an estimate has been fed back *)
Definition after (s : ins) (x : err) (f : ins -> vec) (e : R) : option vec :=
  bind (feedback s (err_scale e x)) (fun t => Some (f t)).

(** the turn of the local axes (north, east, down) when a point moves by minus x, as the feedback uses it *)
Definition frame_turn (lat h : R) (x : vec) : vec :=
  V (vy x / (RN lat + h)) (- vx x / (RM lat + h)) (- vy x * tan lat / (RN lat + h)).

(** what the rows of a design matrix, given by 3x3 blocks, make of an estimate *)
Definition design (f : nat -> mat) (x : err) : vec :=
  vadd (mvec (f 0%nat) (x_pos x)) (vadd (mvec (f 1%nat) (x_vel x)) (vadd (mvec (f 2%nat) (x_att x))
    (vadd (mvec (f 3%nat) (x_gb x)) (mvec (f 4%nat) (x_ab x))))).

(** the solution in earth-fixed axes: place in metres, velocity, and a direction given in body axes *)
Definition earth_place (s : ins) : vec := lla_to_xyz (n_pos (s_nav s)).
Definition to_earth (s : ins) (v : vec) : vec := mvec (lla_to_cne (vx (n_pos (s_nav s))) (vy (n_pos (s_nav s)))) v.
Definition earth_velocity (s : ins) : vec := to_earth s (n_vn (s_nav s)).
Definition earth_direction (v : vec) (s : ins) : vec := to_earth s (mvec (n_Cbn (s_nav s)) v).

(** the error model of the filter over one epoch, as in the textbooks (psi angles): errors of place and velocity along
    north, east, down, attitude error, gyroscope and accelerometer biases with correlation times gt and at.
    f: specific force in local axes, C: attitude, we: turn rate of the local axes over the earth, wi: of the earth *)
Definition error_step (dt lat h g gt at' : R) (f we wi : vec) (C : mat) (x : err) : err :=
  let dr := vsub (x_vel x) (cross we (x_pos x)) in
  let gradient := V (- g / (RM lat + h) * vx (x_pos x)) (- g / (RN lat + h) * vy (x_pos x))
                    (2 * g / (sqrt (RM lat * RN lat) + h) * vz (x_pos x)) in
  let dv := vadd (vsub (vadd gradient (cross f (x_att x))) (cross (vadd we (vscale 2 wi)) (x_vel x))) (mvec C (x_ab x)) in
  let dp := vneg (vadd (cross (vadd we wi) (x_att x)) (mvec C (x_gb x))) in
  Err (vadd (x_pos x) (vscale dt dr)) (vadd (x_vel x) (vscale dt dv)) (vadd (x_att x) (vscale dt dp))
      (vsub (x_gb x) (vscale (dt / gt) (x_gb x))) (vsub (x_ab x) (vscale (dt / at') (x_ab x))).

(** a state away from the poles and the antimeridian whose parts agree *)
Definition agrees (s : ins) (lat lon h : R) : Prop :=
  place_ok lat lon h /\ n_pos (s_nav s) = V lat lon h /\ n_Qne (s_nav s) = lla_to_qne lat lon /\
  qnorm2 (n_Qbn (s_nav s)) = 1 /\ n_Cbn (s_nav s) = quaternion_to_dcm (n_Qbn (s_nav s)).

(** the velocity of the wheel, with the angle increment of the last sample freed from the change of the bias *)
Definition rebiased (s t : ins) : ins :=
  Ins (s_nav t) (s_dt t) (s_acce_pre t) (vsub (s_gyro_pre t) (vscale (s_dt s) (vsub (n_gb (s_nav t)) (n_gb (s_nav s)))))
      (s_wen t) (s_wie t) (s_vn_mid t) (s_pos_mid t) (s_g t).
