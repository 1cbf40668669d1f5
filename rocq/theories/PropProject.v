(** Property C96: output projection. *)
From Coq Require Import Reals Lra Psatz.
From Coquelicot Require Import Coquelicot.
From Verif Require Import RealMath EarthModel ConvertModel ConvertSpec ConvertProofs SmoothModel InsModel InsProofs InsRest FusionBase FusionModel
  AlignModel ApiModel JacobianSpec JacobianBase JacobianProofs JacobianMain ProjectSpec.
Open Scope R_scope.

Lemma line_derive c k : is_derive (fun e => c + e * k) 0 k.
Proof. auto_derive; [exact I|match goal with |- @eq _ ?a ?b => change (@eq R a b) end; ring]. Qed.
Lemma deg_nz : deg <> 0. Proof. unfold deg. apply Rgt_not_eq. pose proof PI_RGT_0. lra. Qed.

(** the reported place is that of the given point, to first order in the lever arm: it starts at the place of the unit and
    moves by the lever arm, turned to earth-fixed axes *)
Theorem C96_place_partial : forall s l a lat lon h, n_pos (s_nav (f_ins s)) = V lat lon h -> place_ok lat lon h ->
  moves (reports s l a) (lla_to_xyz (V lat lon h)) (mvec (lla_to_cne lat lon) (mvec (n_Cbn (s_nav (f_ins s))) l)).
Proof.
  intros s l a lat lon h E P.
  set (d := mvec (n_Cbn (s_nav (f_ins s))) l).
  set (la := fun e => lat + e * (vx d / (RM lat + h))).
  set (lo := fun e => lon + e * (vy d / ((RN lat + h) * cos lat))).
  set (hh := fun e => h + e * (- vz d)).
  assert (Hr := place_rates lat lon h P).
  destruct P as (Pl & Po & Ph).
  assert (C : 0 < cos lat) by (apply cos_gt_0; lra).
  destruct (EarthProofs.radii lat) as [R1 R2].
  exists (fun e => lla_to_xyz (V (la e) (lo e) (hh e))). split; [|split].
  - exists 1. split; [lra|]. intros e _. unfold reports, output, out_place. cbn [projected f_ins f_opt opt_projected o_project o_pos_project].
    rewrite E, Hr. cbn [bind vx vy vz]. unfold reported_place. cbn [p_lat p_lon p_height]. f_equal. f_equal.
    assert (D := deg_nz).
    replace (mvec (n_Cbn (s_nav (f_ins s))) (vscale e l)) with (vscale e d) by (unfold d; generalize (n_Cbn (s_nav (f_ins s))); intros m; destruct m, l; apply vec_ext; simpl; ring).
    unfold la, lo, hh. cbn [vscale vx vy vz]. apply vec_ext; cbn [vx vy vz]; field; repeat split; try lra; try exact D.
  - unfold la, lo, hh. f_equal. apply vec_ext; cbn [vx vy vz]; ring.
  - destruct (xyz_derive la lo hh (vx d / (RM lat + h)) (vy d / ((RN lat + h) * cos lat)) (- vz d) lat lon h) as (D1 & D2 & D3).
    + unfold la. apply line_derive.
    + unfold lo. apply line_derive.
    + unfold hh. apply line_derive.
    + unfold la. ring.
    + unfold lo. ring.
    + unfold hh. ring.
    + assert (V1 : vadd (vscale (vx d / (RM lat + h) * (RM lat + h)) (north lat lon))
          (vadd (vscale (vy d / ((RN lat + h) * cos lat) * (RN lat + h) * cos lat) (east lat lon)) (vscale (- vz d) (up lat lon)))
        = mvec (lla_to_cne lat lon) d).
      { apply vec_ext; unfold north, east, up, lla_to_cne; cbn [vadd vscale mvec vx vy vz m00 m01 m02 m10 m11 m12 m20 m21 m22]; field; lra. }
      rewrite V1 in *. refine (conj _ (conj _ _)); apply is_derive_Reals; assumption.
Qed.
Print Assumptions C96_place_partial.

(** the reported attitude is that of the mounted frame *)
Theorem C96_attitude_partial : forall s l r p h res, rotation (n_Cbn (s_nav (f_ins s))) ->
  output (projected s l (V r p h)) = Some res ->
  - (999 / 1000) < m20 (mmul (n_Cbn (s_nav (f_ins s))) (attitude r p h)) < 999 / 1000 ->
  exists roll pitch heading, p_atti res = Some (V roll pitch heading) /\
    attitude (roll * deg) (pitch * deg) (heading * deg) = mmul (n_Cbn (s_nav (f_ins s))) (attitude r p h).
Proof.
  intros s l r p h res Hr H Hm. unfold output in H.
  destruct (out_place (projected s l (V r p h))) as [pos|]; [|discriminate]. injection H as <-.
  unfold out_atti. cbn [projected f_ins f_opt opt_projected o_project o_att_project p_atti].
  rewrite (euler_dcm_attitude r p h) in *.
  destruct (dcm_euler_sound _ (rotation_mul _ _ Hr (attitude_rotation r p h)) Hm) as (r1 & p1 & h1 & E & _ & F).
  rewrite E. cbn [euler_vec e_roll e_pitch e_heading]. 
  exists (r1 / deg), (p1 / deg), (h1 / deg). split; [reflexivity|].
  rewrite <- F. assert (D := deg_nz). f_equal; field; exact D.
Qed.
Print Assumptions C96_attitude_partial.

(** the velocity is that of the unit, not of the point, whenever the unit turns about an axis that does not pass through the point *)
Theorem C96_velocity_REFUTED : forall s l a w res, rotation (n_Cbn (s_nav (f_ins s))) ->
  output (projected s l a) = Some res -> cross w l <> vzero ->
  p_vn res = n_vn (s_nav (f_ins s)) /\
  p_vn res <> point_velocity (n_vn (s_nav (f_ins s))) (n_Cbn (s_nav (f_ins s))) w l.
Proof.
  intros s l a w res (Hr & _) H Hc. unfold output in H.
  destruct (out_place (projected s l a)) as [pos|]; [|discriminate]. injection H as <-. cbn [p_vn projected f_ins].
  split; [reflexivity|]. unfold point_velocity. intros E. apply Hc.
  set (C := n_Cbn (s_nav (f_ins s))) in *. set (c := cross w l) in *.
  assert (Z : mvec C c = vzero).
  { set (v := n_vn (s_nav (f_ins s))) in *. set (u := mvec C c) in *. clearbody u v.
    assert (E1 := f_equal vx E). assert (E2 := f_equal vy E). assert (E3 := f_equal vz E). simpl in E1, E2, E3.
    apply vec_ext; simpl; lra. }
  assert (Y : mvec (mmul (mtrans C) C) c = vzero).
  { transitivity (mvec (mtrans C) (mvec C c)); [destruct C, c; apply vec_ext; simpl; ring|].
    rewrite Z. apply vec_ext; simpl; ring. }
  rewrite Hr in Y. rewrite <- Y. destruct c; apply vec_ext; simpl; ring.
Qed.
Print Assumptions C96_velocity_REFUTED.

(** a unit on the equator, turning about the vertical, with the point one metre ahead *)
Example C96_case : place_ok 0 0 0 /\ rotation (attitude 0 0 0) /\ cross (V 0 0 1) (V 1 0 0) <> vzero /\
  - (999 / 1000) < m20 (mmul (attitude 0 0 0) (attitude 0 0 0)) < 999 / 1000.
Proof.
  assert (P := PI_RGT_0). split; [unfold place_ok; lra|]. split; [apply attitude_rotation|]. split.
  - intros E. apply (f_equal vy) in E. simpl in E. lra.
  - simpl. rewrite sin_0, cos_0. lra.
Qed.
