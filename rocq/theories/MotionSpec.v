(** The strapdown equations (C87): what one sample does to the solution when the sampling interval gets small. *)
From Coq Require Import Reals.
From Verif Require Import RealMath EarthModel ConvertModel ConvertSpec SmoothModel InsModel JacobianSpec.
Open Scope R_scope.

(** a quantity that depends on the interval e and settles when e gets small *)
Definition settles (g : R -> vec) : Prop := exists dv, vderive g dv.
(** the state s of a mechanisation that runs with the sampling interval e; over the sample before, the mean specific force was
    f0 e and the mean angular rate w0 e (after compensation), and the velocity changed at the rate a0 e *)
Definition paced (s : ins) (f0 w0 a0 : R -> vec) (e : R) : ins :=
  Ins (nav_vel (s_nav s) (n_vn (s_nav s)) (vscale e (a0 e)) (n_vf (s_nav s))) e (vscale e (f0 e)) (vscale e (w0 e))
      (s_wen s) (s_wie s) (s_vn_mid s) (s_pos_mid s) (s_g s).
(** the next sample: mean measured specific force f e and mean angular rate w e, over the interval e *)
Definition increments (t : R) (f w : R -> vec) (e : R) : imu := Imu t (vscale e (w e)) (vscale e (f e)).
(** a value computed from the solution after that sample *)
Definition stepped (s : ins) (f0 w0 a0 : R -> vec) (t : R) (f w : R -> vec) (v : ins -> vec) (e : R) : option vec :=
  bind (forward (paced s f0 w0 a0 e) (increments t f w e)) (fun u => Some (v u)).
(** as e tends to 0, without being 0, that value tends to v0 and its change divided by e to dv *)
Definition tends (f : R -> option vec) (v0 dv : vec) : Prop :=
  exists g : R -> vec, (exists r, 0 < r /\ forall e, e <> 0 -> Rabs e < r -> f e = Some (g e)) /\ g 0 = v0 /\ vderive g dv.

(** measurements freed from bias and scale factor *)
Definition freed (m bias scale : vec) : vec := mvec (msub eye (mdiag scale)) (vsub m bias).
(** gravity in earth-fixed axes: along the normal of the ellipsoid *)
Definition earth_gravity (lat lon h : R) : vec := vscale (- gravity lat h) (up lat lon).

(** ** movements over one interval with rates that change linearly (C88) *)
(** the values of g change at the rate d *)
Definition changes (g d : R -> vec) : Prop := forall t,
  derivable_pt_lim (fun e => vx (g e)) t (vx (d t)) /\ derivable_pt_lim (fun e => vy (g e)) t (vy (d t)) /\
  derivable_pt_lim (fun e => vz (g e)) t (vz (d t)).
Definition linear (a b : vec) (t : R) : vec := vadd a (vscale t b).
(** rates w (angular) and f (specific force), seen from the unit; alpha and beta: their integrals from time 0;
    sigma: half the integral of alpha x w (Bortz' equation for the rotation vector, to second order);
    rho: the integral of alpha x f (the force turned into the axes of time 0, to first order in the angle) *)
Record manoeuvre := Mv { m_w : R -> vec; m_f : R -> vec; m_alpha : R -> vec; m_beta : R -> vec; m_sigma : R -> vec; m_rho : R -> vec }.
Definition integrals (m : manoeuvre) : Prop :=
  changes (m_alpha m) (m_w m) /\ changes (m_beta m) (m_f m) /\
  changes (m_sigma m) (fun t => vscale (1 / 2) (cross (m_alpha m t) (m_w m t))) /\ changes (m_rho m) (fun t => cross (m_alpha m t) (m_f m t)) /\
  m_alpha m 0 = vzero /\ m_beta m 0 = vzero /\ m_sigma m 0 = vzero /\ m_rho m 0 = vzero.
(** the same state without memory of the sample before *)
Definition forgets (s : ins) : ins :=
  Ins (s_nav s) (s_dt s) vzero vzero (s_wen s) (s_wie s) (s_vn_mid s) (s_pos_mid s) (s_g s).
(** no biases, no scale factors *)
Definition ideal (s : ins) : Prop :=
  n_gb (s_nav s) = vzero /\ n_ab (s_nav s) = vzero /\ n_gs (s_nav s) = vzero /\ n_as (s_nav s) = vzero.
