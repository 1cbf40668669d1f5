(** The place after a small step (C87). *)
From Coq Require Import Reals Lra Psatz.
From Coquelicot Require Import Coquelicot.
From Verif Require Import RealMath EarthModel ConvertModel ConvertSpec ConvertProofs EarthProofs MathWrap SmoothModel
  InsModel InsProofs InsRest InsRest2 FusionBase JacobianSpec JacobianBase JacobianProofs MotionSpec MotionBase.
Open Scope R_scope.

Lemma place_gen (q : R -> quat) dq lat lon h d : place_ok lat lon h -> vz d = - vx d * tan lat -> q 0 = lla_to_qne lat lon ->
  qdiff q dq -> let q0 := lla_to_qne lat lon in
  qw dq = (qx q0 * vx d + qy q0 * vy d + qz q0 * vz d) / 2 -> qy dq = - (qw q0 * vy d + qz q0 * vx d - qx q0 * vz d) / 2 ->
  qz dq = - (qw q0 * vz d + qx q0 * vy d - qy q0 * vx d) / 2 ->
  is_derive (fun e => lat_of (q e)) 0 (vy d) /\ is_derive (fun e => lon_of (q e)) 0 (- vx d / cos lat).
Proof.
  intros P T q00 (DW' & _ & DY' & DZ') q0 HW HY HZ. destruct (half_angles _ _ _ P) as (C1 & C2 & _).
  destruct (place_derive lat lon h d P T) as (PL & PO).
  assert (W0 : qw (lla_to_qne lat lon) <> 0) by (simpl; apply Rgt_not_eq; nra).
  assert (W1 : qw (turned lat lon d 0) <> 0) by (rewrite turned_0; exact W0).
  assert (W2 : qw (q 0) <> 0) by (rewrite q00; exact W0).
  assert (DW := turned_w lat lon d). assert (DY := turned_y lat lon d). assert (DZ := turned_z lat lon d). cbv zeta in DW, DY, DZ.
  fold q0 in DW, DY, DZ. rewrite <- HW in DW. rewrite <- HY in DY. rewrite <- HZ in DZ.
  assert (RY := ratio_derive _ _ _ _ DY DW W1). assert (RZ := ratio_derive _ _ _ _ DZ DW W1).
  assert (RY' := ratio_derive _ _ _ _ DY' DW' W2). assert (RZ' := ratio_derive _ _ _ _ DZ' DW' W2).
  cbv beta in RY, RZ, RY', RZ'. rewrite turned_0 in RY, RZ. rewrite q00 in RY', RZ'.
  split.
  - assert (E : is_derive (fun e => lat_of (turned lat lon d e)) 0 (plus zero (-2 * ((qy dq * qw (lla_to_qne lat lon) - qy (lla_to_qne lat lon) * qw dq) /
       (qy (lla_to_qne lat lon) * qy (lla_to_qne lat lon) + qw (lla_to_qne lat lon) * qw (lla_to_qne lat lon)))))).
    { unfold lat_of. apply @is_derive_plus; [apply @is_derive_const|]. apply is_derive_scal. exact RY. }
    apply is_derive_unique in E. apply is_derive_unique in PL. rewrite PL in E. rewrite E.
    unfold lat_of. apply @is_derive_plus; [apply @is_derive_const|]. apply is_derive_scal. exact RY'.
  - assert (E : is_derive (fun e => lon_of (turned lat lon d e)) 0 (2 * ((qz dq * qw (lla_to_qne lat lon) - qz (lla_to_qne lat lon) * qw dq) /
       (qz (lla_to_qne lat lon) * qz (lla_to_qne lat lon) + qw (lla_to_qne lat lon) * qw (lla_to_qne lat lon))))).
    { unfold lon_of. apply is_derive_scal. exact RZ. }
    apply is_derive_unique in E. apply is_derive_unique in PO. rewrite PO in E. rewrite E.
    unfold lon_of. apply is_derive_scal. exact RZ'.
Qed.

(** the turn of the earth about its axis, seen from the local frame *)
Lemma earth_commute lat lon : qmul (half_pure omega_ie_e) (lla_to_qne lat lon) = qmul (lla_to_qne lat lon) (half_pure (omega_ie_n lat)).
Proof.
  unfold half_pure, lla_to_qne, omega_ie_e, omega_ie_n. cbn [vx vy vz].
  set (phi := - (1 / 4) * PI - 1 / 2 * lat) in *. set (la := 1 / 2 * lon) in *.
  assert (S1 := sin2_cos2 phi). unfold Rsqr in S1.
  assert (E1 : sin lat = - (cos phi * cos phi - sin phi * sin phi)).
  { rewrite <- cos_2a. unfold phi. replace (2 * (- (1 / 4) * PI - 1 / 2 * lat)) with (- (PI / 2 + lat)) by field.
    rewrite cos_neg, cos_plus, cos_PI2, sin_PI2. ring. }
  assert (E2 : cos lat = - (2 * sin phi * cos phi)).
  { rewrite <- sin_2a. unfold phi. replace (2 * (- (1 / 4) * PI - 1 / 2 * lat)) with (- (PI / 2 + lat)) by field.
    rewrite sin_neg, sin_plus, cos_PI2, sin_PI2. ring. }
  rewrite E1, E2. set (s := sin phi) in *. set (c := cos phi) in *. clearbody s c.
  apply quat_ext; cbn [qmul qw qx qy qz]; ring_simplify.
  - transitivity (- (omega_e / 2 * c * sin la * (s * s + c * c))); [rewrite S1|]; field.
  - transitivity (- (omega_e / 2 * s * cos la * (s * s + c * c))); [rewrite S1|]; field.
  - transitivity (- (omega_e / 2 * s * sin la * (s * s + c * c))); [rewrite S1|]; field.
  - transitivity (omega_e / 2 * c * cos la * (s * s + c * c)); [rewrite S1|]; field.
Qed.
Lemma placeq_place (a b : R -> vec) lat lon h c w : place_ok lat lon h -> vz w = - vx w * tan lat -> vsm a -> vsm b ->
  a 0 = vscale (- c) omega_ie_e -> b 0 = vadd (vscale c (omega_ie_n lat)) w ->
  is_derive (fun e => lat_of (placeq a b (lla_to_qne lat lon) e)) 0 (- vy w) /\
  is_derive (fun e => lon_of (placeq a b (lla_to_qne lat lon) e)) 0 (vx w / cos lat).
Proof.
  intros P T A B Ha Hb. assert (Ec := earth_commute lat lon).
  replace (vx w / cos lat) with (- vx (vneg w) / cos lat) by (simpl; unfold Rdiv; ring). change (- vy w) with (vy (vneg w)).
  assert (D := placeq_diff a b (lla_to_qne lat lon) A B). rewrite Ha, Hb in D.
  generalize (f_equal qw Ec) (f_equal qx Ec) (f_equal qy Ec) (f_equal qz Ec). clear Ec.
  unfold half_pure in *. cbn [qmul qw qx qy qz vx vy vz vadd vscale] in *. intros X1 X2 X3 X4.
  eapply (place_gen _ _ lat lon h (vneg w) P); [simpl; rewrite T; ring|apply placeq_0|exact D| | |];
  cbn [qsum qmul qw qx qy qz vx vy vz vadd vscale vneg];
  set (q1 := qw (lla_to_qne lat lon)) in *; set (q2 := qx (lla_to_qne lat lon)) in *; set (q3 := qy (lla_to_qne lat lon)) in *; set (q4 := qz (lla_to_qne lat lon)) in *;
  clearbody q1 q2 q3 q4.
  all: set (o1 := vx omega_ie_e) in *; set (o2 := vy omega_ie_e) in *; set (o3 := vz omega_ie_e) in *;
       set (n1 := vx (omega_ie_n lat)) in *; set (n2 := vy (omega_ie_n lat)) in *; set (n3 := vz (omega_ie_n lat)) in *; clearbody o1 o2 o3 n1 n2 n3.
  - apply (f_equal (fun r => c * r)) in X1. lra.
  - apply (f_equal (fun r => c * r)) in X3. lra.
  - apply (f_equal (fun r => c * r)) in X4. lra.
Qed.

(** the functions of the earth are smooth *)
Lemma sm_sin f : sm f -> sm (fun e => sin (f e)). Proof. intros A. unfold sm in *. auto_derive. auto. Qed.
Lemma sm_cos f : sm f -> sm (fun e => cos (f e)). Proof. intros A. unfold sm in *. auto_derive. auto. Qed.
Lemma sm_RN f : sm f -> sm (fun e => RN (f e)).
Proof. intros (l & D). eexists. apply RN_derive. exact D. Qed.
Lemma sm_RM f : sm f -> sm (fun e => RM (f e)).
Proof.
  intros A. unfold sm in *. unfold RM. cbv zeta. assert (Rt := root_sqrt (f 0)). assert (Rr := root_range (f 0)). assert (E := e2_range).
  auto_derive. change (1 + - (e2 * sin (f 0) * sin (f 0))) with (1 - e2 * sin (f 0) * sin (f 0)). repeat split; auto; try lra. 
  apply Rgt_not_eq. apply Rmult_lt_0_compat; lra.
Qed.
Lemma sm_tan f : sm f -> cos (f 0) <> 0 -> sm (fun e => tan (f e)).
Proof. intros A C. unfold tan. apply sm_div; [apply sm_sin|apply sm_cos|]; assumption. Qed.
Lemma sm_gravity f g : sm f -> sm g -> sm (fun e => gravity (f e) (g e)).
Proof. intros A B. unfold sm in *. unfold gravity. cbv zeta. auto_derive. repeat split; auto. Qed.
Definition vec_ok (p : vec) : Prop := - (PI / 2) < vx p < PI / 2 /\ -6000000 < vz p.
Lemma place_vec lat lon h : place_ok lat lon h -> vec_ok (V lat lon h).
Proof. intros (A & _ & B). split; assumption. Qed.
Lemma vec_rates p : vec_ok p -> rates_defined p = true.
Proof.
  intros (A & H). assert (C := cos_range_pos (vx p) A). assert (B := radii (vx p)).
  unfold rates_defined. destruct (Req_EM_T (cos (vx p)) 0); [lra|].
  destruct (Req_EM_T (RN (vx p) + vz p) 0); [lra|]. destruct (Req_EM_T (RM (vx p) + vz p) 0); [lra|]. reflexivity.
Qed.
Lemma near_ok p : vsm p -> vec_ok (p 0) -> near (fun e => vec_ok (p e)).
Proof.
  intros (A & _ & B) ((C & D) & E).
  apply (near_imp (fun e => (- (PI / 2) < vx (p e) /\ vx (p e) < PI / 2) /\ -6000000 < vz (p e))).
  { intros e K. exact K. }
  apply near_two; [apply near_two|].
  - apply (near_gt (fun e => vx (p e))); assumption.
  - apply (near_lt (fun e => vx (p e))); assumption.
  - apply (near_gt (fun e => vz (p e))); assumption.
Qed.
Lemma near_wen v p : vsm p -> vec_ok (p 0) -> near (fun e => wen_opt (v e) (p e) = Some (omega_en_n (v e) (p e))).
Proof.
  intros A B. apply (near_imp (fun e => vec_ok (p e))); [|apply near_ok; assumption].
  intros e H. unfold wen_opt. rewrite (vec_rates _ H). reflexivity.
Qed.
Lemma vsm_wen v p : vsm v -> vsm p -> vec_ok (p 0) -> vsm (fun e => omega_en_n (v e) (p e)).
Proof.
  intros (A & B & C) (D & E & F) (L & H). assert (Cc := cos_range_pos (vx (p 0)) L). assert (R0 := radii (vx (p 0))).
  assert (N := sm_RN _ D). assert (M := sm_RM _ D). assert (T := sm_tan _ D ltac:(lra)).
  assert (N' := sm_plus _ _ N F). assert (M' := sm_plus _ _ M F).
  unfold omega_en_n. cbv zeta. apply vsm_V.
  - apply (sm_div (fun e => vy (v e))); [assumption|exact N'|lra].
  - apply (sm_div (fun e => - vx (v e))); [apply sm_opp; assumption|exact M'|lra].
  - apply (sm_div (fun e => - vy (v e) * tan (vx (p e)))); [|exact N'|lra]. apply sm_mult; [apply sm_opp|]; assumption.
Qed.
Lemma vsm_wie f : sm f -> vsm (fun e => omega_ie_n (f e)).
Proof.
  intros A. unfold omega_ie_n. apply vsm_V; [apply (sm_mult (fun _ => omega_e)); [apply sm_const|apply sm_cos; exact A]|apply sm_const|].
  apply (sm_mult (fun _ => - omega_e)); [apply sm_const|apply sm_sin; exact A].
Qed.
(** the place quaternion is far from the antimeridian and the poles *)
Lemma near_lla (a b : R -> vec) lat lon h : place_ok lat lon h -> vsm a -> vsm b ->
  near (fun e => lla_opt (qnormalized (placeq a b (lla_to_qne lat lon) e)) =
    Some (lat_of (placeq a b (lla_to_qne lat lon) e), lon_of (placeq a b (lla_to_qne lat lon) e))).
Proof.
  intros P A B. destruct (half_angles _ _ _ P) as (C1 & C2 & _).
  apply (near_imp (fun e => 0 < qw (placeq a b (lla_to_qne lat lon) e))).
  - intros e W. apply lla_opt_ratio. exact W.
  - apply (near_gt (fun e => qw (placeq a b (lla_to_qne lat lon) e))).
    + destruct (placeq_diff a b (lla_to_qne lat lon) A B) as (D & _). eexists. exact D.
    + rewrite placeq_0. simpl. nra.
Qed.
Lemma lat_of_place lat lon h : place_ok lat lon h -> lat_of (lla_to_qne lat lon) = lat /\ lon_of (lla_to_qne lat lon) = lon.
Proof.
  intros P. assert (H := lla_opt_place _ _ _ P). destruct (half_angles _ _ _ P) as (C1 & C2 & _).
  assert (W : 0 < qw (lla_to_qne lat lon)) by (simpl; nra).
  assert (K := lla_opt_ratio _ W). 
  replace (qnormalized (lla_to_qne lat lon)) with (lla_to_qne lat lon) in K.
  - rewrite H in K. injection K as K1 K2. split; [symmetry; exact K1|symmetry; exact K2].
  - symmetry. apply qnormalized_same, qne_unit.
Qed.
