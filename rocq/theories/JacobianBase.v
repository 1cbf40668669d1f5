(** Derivatives of the conversions along small rotations. *)
From Coq Require Import Reals Lra Psatz.
From Coquelicot Require Import Coquelicot.
From Verif Require Import RealMath EarthModel ConvertModel ConvertSpec ConvertProofs EarthProofs MathWrap SmoothModel
  InsModel InsProofs InsRest InsRest2 JacobianSpec.
Open Scope R_scope.

(** the series branch of rv_to_quaternion, for the vector e * u *)
Definition rvs (u : vec) (e : R) : quat :=
  let m := e * e * dot u u * (1 / 4) in
  let cs := 1 - m / 2 * (1 - m / 12 * (1 - m / 30)) in
  let sn := 1 - m / 6 * (1 - m / 20 * (1 - m / 42)) in
  Q cs (1 / 2 * sn * (e * vx u)) (1 / 2 * sn * (e * vy u)) (1 / 2 * sn * (e * vz u)).

Lemma rv_small u e : e * e * dot u u < PI * PI -> rv_to_quaternion (vscale e u) = rvs u e.
Proof.
  intros H. unfold rv_to_quaternion. cbv zeta.
  replace (vx (vscale e u) * vx (vscale e u) + vy (vscale e u) * vy (vscale e u) + vz (vscale e u) * vz (vscale e u))
    with (e * e * dot u u) by (unfold dot; simpl; ring).
  destruct (Rlt_dec (e * e * dot u u) (PI * PI)); [|contradiction]. reflexivity.
Qed.
Lemma small_near u : exists r, 0 < r /\ forall e, Rabs e < r -> e * e * dot u u < PI * PI.
Proof.
  assert (P := PI_gt_3). assert (D := dot_nonneg u).
  exists (3 / (1 + dot u u)). split. { apply Rdiv_lt_0_compat; lra. }
  intros e He. assert (A := Rabs_pos e).
  assert (B : Rabs e * (1 + dot u u) < 3).
  { apply (Rmult_lt_compat_r (1 + dot u u)) in He; [|lra]. replace (3 / (1 + dot u u) * (1 + dot u u)) with 3 in He by (field; lra). exact He. }
  assert (S : e * e = Rabs e * Rabs e) by (unfold Rabs; destruct (Rcase_abs e); ring). rewrite S.
  assert (Rabs e < 3) by nra. assert (Rabs e * dot u u <= 3) by nra. nra.
Qed.

Lemma lla_opt_ratio q : 0 < qw q ->
  lla_opt (qnormalized q) = Some (- (1 / 2) * PI + -2 * atan (qy q / qw q), 2 * atan (qz q / qw q)).
Proof.
  intros W. assert (N : 0 < qnorm2 q) by (unfold qnorm2; nra). assert (S := sqrt_lt_R0 _ N).
  unfold lla_opt, qne_to_lla, qnormalized. cbv zeta. destruct (Rlt_dec 0 (qnorm2 q)); [|lra]. cbn [qw qx qy qz].
  set (n := sqrt (qnorm2 q)) in *.
  assert (P : 0 < qw q / n) by (apply Rdiv_lt_0_compat; assumption).
  unfold xdiv. destruct (Req_EM_T (qw q / n) 0); [lra|]. simpl. unfold atan2. destruct (Rlt_dec 0 (qw q / n)); [|lra].
  replace (qy q / n / (qw q / n)) with (qy q / qw q) by (field; lra).
  replace (qz q / n / (qw q / n)) with (qz q / qw q) by (field; lra). reflexivity.
Qed.

(** angles of the place quaternion *)
Lemma half_angles lat lon h : place_ok lat lon h ->
  0 < cos (- (1 / 4) * PI - 1 / 2 * lat) /\ 0 < cos (1 / 2 * lon) /\ 0 < cos lat.
Proof.
  intros (A & B & _). assert (P := PI_RGT_0). repeat split.
  - rewrite <- cos_neg. apply cos_gt_0; lra.
  - apply cos_gt_0; lra.
  - apply cos_gt_0; lra.
Qed.
Definition turned (lat lon : R) (d : vec) (e : R) : quat := qmul (lla_to_qne lat lon) (rvs (vneg d) e).
Lemma turned_0 lat lon d : turned lat lon d 0 = lla_to_qne lat lon.
Proof. unfold turned, rvs. destruct d. apply quat_ext; simpl; field. Qed.

Ltac der := auto_derive; [repeat split; auto; try lra |].
Lemma turned_w lat lon d : let q := lla_to_qne lat lon in
  is_derive (fun e => qw (turned lat lon d e)) 0 ((qx q * vx d + qy q * vy d + qz q * vz d) / 2).
Proof. cbv zeta. unfold turned. generalize (lla_to_qne lat lon) as q. intros [w x y z]. destruct d as [a b c]. unfold rvs, dot. simpl. der. field. Qed.
Lemma turned_y lat lon d : let q := lla_to_qne lat lon in
  is_derive (fun e => qy (turned lat lon d e)) 0 (- (qw q * vy d + qz q * vx d - qx q * vz d) / 2).
Proof. cbv zeta. unfold turned. generalize (lla_to_qne lat lon) as q. intros [w x y z]. destruct d as [a b c]. unfold rvs, dot. simpl. der. field. Qed.
Lemma turned_z lat lon d : let q := lla_to_qne lat lon in
  is_derive (fun e => qz (turned lat lon d e)) 0 (- (qw q * vz d + qx q * vy d - qy q * vx d) / 2).
Proof. cbv zeta. unfold turned. generalize (lla_to_qne lat lon) as q. intros [w x y z]. destruct d as [a b c]. unfold rvs, dot. simpl. der. field. Qed.

Definition lat_of (q : quat) : R := - (1 / 2) * PI + -2 * atan (qy q / qw q).
Definition lon_of (q : quat) : R := 2 * atan (qz q / qw q).

Lemma ratio_derive (f g : R -> R) (df dg : R) : is_derive f 0 df -> is_derive g 0 dg -> g 0 <> 0 ->
  is_derive (fun e => atan (f e / g e)) 0 ((df * g 0 - f 0 * dg) / (f 0 * f 0 + g 0 * g 0)).
Proof.
  intros F G N. auto_derive.
  - repeat split; auto; [exists df; exact F|exists dg; exact G].
  - replace (Derive (fun x => f x) 0) with df by (symmetry; apply is_derive_unique; exact F).
    replace (Derive (fun x => g x) 0) with dg by (symmetry; apply is_derive_unique; exact G).
    unfold Rsqr. field. split; [|exact N]. assert (0 < g 0 * g 0) by nra. nra.
Qed.

(** a turn by d of the local axes, consistent with a movement of the place *)
Lemma place_derive lat lon h d : place_ok lat lon h -> vz d = - vx d * tan lat ->
  is_derive (fun e => lat_of (turned lat lon d e)) 0 (vy d) /\
  is_derive (fun e => lon_of (turned lat lon d e)) 0 (- vx d / cos lat).
Proof.
  intros P T. destruct (half_angles _ _ _ P) as (C1 & C2 & C3).
  assert (W0 : qw (turned lat lon d 0) <> 0).
  { rewrite turned_0. simpl. apply Rgt_not_eq. nra. }
  assert (DW := turned_w lat lon d). assert (DY := turned_y lat lon d). assert (DZ := turned_z lat lon d). cbv zeta in DW, DY, DZ.
  assert (RY := ratio_derive _ _ _ _ DY DW W0). assert (RZ := ratio_derive _ _ _ _ DZ DW W0).
  cbv beta in RY, RZ. rewrite turned_0 in RY, RZ.
  set (phi := - (1 / 4) * PI - 1 / 2 * lat) in *. set (la := 1 / 2 * lon) in *.
  assert (S1 := sin2_cos2 phi). assert (S2 := sin2_cos2 la). unfold Rsqr in S1, S2.
  assert (E1 : sin lat = - (cos phi * cos phi - sin phi * sin phi)).
  { rewrite <- cos_2a. unfold phi. replace (2 * (- (1 / 4) * PI - 1 / 2 * lat)) with (- (PI / 2 + lat)) by field.
    rewrite cos_neg, cos_plus, cos_PI2, sin_PI2. ring. }
  assert (E2 : cos lat = - (2 * sin phi * cos phi)).
  { rewrite <- sin_2a. unfold phi. replace (2 * (- (1 / 4) * PI - 1 / 2 * lat)) with (- (PI / 2 + lat)) by field.
    rewrite sin_neg, sin_plus, cos_PI2, sin_PI2. ring. }
  assert (SP : sin phi <> 0) by (intro Z; rewrite Z in E2; lra).
  assert (T' : vz d * cos lat = - vx d * sin lat) by (rewrite T; unfold tan; field; lra).
  split.
  - apply (is_derive_ext (fun e => - (1 / 2) * PI + -2 * atan (qy (turned lat lon d e) / qw (turned lat lon d e)))); [reflexivity|].
    evar_last. { apply @is_derive_plus; [apply @is_derive_const|]. apply is_derive_scal. exact RY. }
    unfold plus, zero, scal, mult; simpl. unfold mult; simpl.
    fold phi la. replace ((sin phi * cos la) * (sin phi * cos la) + cos phi * cos la * (cos phi * cos la)) with (cos la * cos la)
      by (transitivity (cos la * cos la * (sin phi * sin phi + cos phi * cos phi)); [rewrite S1; ring|ring]).
    apply (Rmult_eq_reg_r (cos la * cos la)); [|apply Rgt_not_eq; nra].
    field_simplify; [|lra]. 
    transitivity (cos la ^ 2 * vy d * (sin phi * sin phi + cos phi * cos phi)
       + sin la * cos la * (vx d * (cos phi * cos phi - sin phi * sin phi) + vz d * (2 * sin phi * cos phi))); [field|].
    rewrite S1. replace (cos phi * cos phi - sin phi * sin phi) with (- sin lat) by lra.
    replace (2 * sin phi * cos phi) with (- cos lat) by lra. 
    transitivity (cos la ^ 2 * vy d - sin la * cos la * (vx d * sin lat + vz d * cos lat)); [ring|]. rewrite T'. ring.
  - apply (is_derive_ext (fun e => 2 * atan (qz (turned lat lon d e) / qw (turned lat lon d e)))); [reflexivity|].
    evar_last. { apply is_derive_scal. exact RZ. }
    unfold plus, zero, scal, mult; simpl. unfold mult; simpl. fold phi la.
    replace ((cos phi * sin la) * (cos phi * sin la) + cos phi * cos la * (cos phi * cos la)) with (cos phi * cos phi)
      by (transitivity (cos phi * cos phi * (sin la * sin la + cos la * cos la)); [rewrite S2; ring|ring]).
    assert (Vz : vz d = - vx d * sin lat / cos lat) by (apply (Rmult_eq_reg_r (cos lat)); [rewrite T'; field; lra|lra]).
    apply (Rmult_eq_reg_r (cos phi * cos phi)); [|apply Rgt_not_eq; nra].
    transitivity (- vz d * (cos phi * cos phi * (sin la * sin la + cos la * cos la)) + vx d * sin phi * cos phi * (sin la * sin la + cos la * cos la)); [field; lra|].
    rewrite S2, Vz. apply (Rmult_eq_reg_r (cos lat)); [|lra].
    transitivity (vx d * (sin lat * (cos phi * cos phi) + sin phi * cos phi * cos lat)); [field; lra|].
    transitivity (- vx d * (cos phi * cos phi) * (sin phi * sin phi + cos phi * cos phi)); [|rewrite S1; field; lra].
    rewrite E1, E2. ring.
Qed.

(** the derivative of the place in earth-fixed coordinates *)
Lemma RN_derive (la : R -> R) (e l : R) : is_derive la e l ->
  is_derive (fun t => RN (la t)) e (l * (semi_major * e2 * sin (la e) * cos (la e) /
     ((1 - e2 * sin (la e) * sin (la e)) * sqrt (1 - e2 * sin (la e) * sin (la e))))).
Proof.
  intros D. assert (Rt := root_sqrt (la e)). assert (Rr := root_range (la e)). assert (E := e2_range).
  unfold RN. cbv zeta.
  assert (X := sqrt_sqrt (1 - e2 * sin (la e) * sin (la e)) ltac:(lra)).
  auto_derive.
  - change (1 + - (e2 * sin (la e) * sin (la e))) with (1 - e2 * sin (la e) * sin (la e)). repeat split; try (exists l; exact D); try lra.
  - replace (Derive (fun x => la x) e) with l by (symmetry; apply is_derive_unique; exact D).
    replace (1 + - (e2 * sin (la e) * sin (la e))) with (1 - e2 * sin (la e) * sin (la e)) by ring.
    set (r := sqrt _) in *. rewrite <- X. field. lra.
Qed.

Lemma xyz_derive (la lo hh : R -> R) (l m k lat lon h : R) : is_derive la 0 l -> is_derive lo 0 m -> is_derive hh 0 k ->
  la 0 = lat -> lo 0 = lon -> hh 0 = h ->
  let v := vadd (vscale (l * (RM lat + h)) (north lat lon)) (vadd (vscale (m * (RN lat + h) * cos lat) (east lat lon)) (vscale k (up lat lon))) in
  is_derive (fun e => vx (lla_to_xyz (V (la e) (lo e) (hh e)))) 0 (vx v) /\
  is_derive (fun e => vy (lla_to_xyz (V (la e) (lo e) (hh e)))) 0 (vy v) /\
  is_derive (fun e => vz (lla_to_xyz (V (la e) (lo e) (hh e)))) 0 (vz v).
Proof.
  intros L M K <- <- <-. cbv zeta. set (lat := la 0). set (lon := lo 0). set (h := hh 0).
  assert (DN := RN_derive la 0 l L). fold lat in DN.
  assert (Rt := root_sqrt lat). assert (Rr := root_range lat). assert (E := e2_range).
  assert (X := sqrt_sqrt (1 - e2 * sin lat * sin lat) ltac:(lra)).
  assert (T := sin2_cos2 lat). unfold Rsqr in T.
  set (dn := l * (semi_major * e2 * sin lat * cos lat / ((1 - e2 * sin lat * sin lat) * sqrt (1 - e2 * sin lat * sin lat)))) in *.
  (* the meridian radius *)
  assert (K1 : RM lat = RN lat - dn / l * 0 + (RM lat - RN lat)) by ring. clear K1.
  assert (F1 : - l * sin lat * (RM lat + h) = dn * cos lat - (RN lat + h) * l * sin lat).
  { unfold dn, RM, RN. cbv zeta. set (r := sqrt _) in *. rewrite <- X.
    assert (X' : e2 * (sin lat * sin lat) = 1 - r * r) by lra.
    apply (Rmult_eq_reg_r (r * r * r)); [|apply Rgt_not_eq; nra].
    transitivity (- l * sin lat * (semi_major * (1 - e2) + h * r * r * r)); [field; lra|].
    transitivity (semi_major * l * sin lat * (e2 * (cos lat * cos lat)) - (semi_major * r * r + h * r * r * r) * l * sin lat); [|field; lra].
    replace (cos lat * cos lat) with (1 - sin lat * sin lat) by lra.
    transitivity (l * sin lat * (semi_major * (e2 - e2 * (sin lat * sin lat)) - semi_major * r * r - h * r * r * r)); [rewrite X'; ring|ring]. }
  assert (F2 : l * cos lat * (RM lat + h) = dn * (1 - e2) * sin lat + (RN lat * (1 - e2) + h) * l * cos lat).
  { unfold dn, RM, RN. cbv zeta. set (r := sqrt _) in *. rewrite <- X.
    assert (X' : e2 * (sin lat * sin lat) = 1 - r * r) by lra.
    apply (Rmult_eq_reg_r (r * r * r)); [|apply Rgt_not_eq; nra].
    transitivity (l * cos lat * (semi_major * (1 - e2) + h * r * r * r)); [field; lra|].
    transitivity (l * cos lat * (semi_major * (1 - e2) * (e2 * (sin lat * sin lat)) + semi_major * r * r * (1 - e2) + h * r * r * r)); [|field; lra].
    rewrite X'. ring. }
  clearbody dn.
  unfold lla_to_xyz, north, east, up. cbn [vx vy vz vadd vscale].
  assert (LL : Derive (fun x => la x) 0 = l) by (apply is_derive_unique; exact L).
  assert (MM : Derive (fun x => lo x) 0 = m) by (apply is_derive_unique; exact M).
  assert (KK : Derive (fun x => hh x) 0 = k) by (apply is_derive_unique; exact K).
  assert (NN : Derive (fun x => RN (la x)) 0 = dn) by (apply is_derive_unique; exact DN).
  set (f := fun x : R => RN (la x)) in *.
  assert (f0 : f 0 = RN lat) by reflexivity.
  refine (conj _ (conj _ _)).
  - match goal with |- is_derive _ _ ?v => change (is_derive (fun e : R => (f e + hh e) * cos (la e) * cos (lo e)) 0 v) end.
    auto_derive.
    + repeat split; eexists; eassumption.
    + change (Derive (fun x => f x) 0) with (Derive f 0). rewrite LL, MM, KK, NN, f0. fold lat lon h.
      transitivity (cos lon * (dn * cos lat - (RN lat + h) * l * sin lat) + cos lat * (k * cos lon - (RN lat + h) * m * sin lon)); [ring|].
      rewrite <- F1. ring.
  - match goal with |- is_derive _ _ ?v => change (is_derive (fun e : R => (f e + hh e) * cos (la e) * sin (lo e)) 0 v) end.
    auto_derive.
    + repeat split; eexists; eassumption.
    + change (Derive (fun x => f x) 0) with (Derive f 0). rewrite LL, MM, KK, NN, f0. fold lat lon h.
      transitivity (sin lon * (dn * cos lat - (RN lat + h) * l * sin lat) + cos lat * (k * sin lon + (RN lat + h) * m * cos lon)); [ring|].
      rewrite <- F1. ring.
  - match goal with |- is_derive _ _ ?v => change (is_derive (fun e : R => (f e * (1 - e2) + hh e) * sin (la e)) 0 v) end.
    auto_derive.
    + repeat split; eexists; eassumption.
    + change (Derive (fun x => f x) 0) with (Derive f 0). rewrite LL, KK, NN, f0. fold lat h.
      transitivity (dn * (1 - e2) * sin lat + (RN lat * (1 - e2) + h) * l * cos lat + k * sin lat); [ring|].
      rewrite <- F2. ring.
Qed.

(** rotation matrix of a normalised quaternion, without the root *)
Lemma dcm_normalized q : 0 < qnorm2 q -> quaternion_to_dcm (qnormalized q) =
  M (1 - 2 * (qy q * qy q + qz q * qz q) / qnorm2 q) (2 * (qx q * qy q - qw q * qz q) / qnorm2 q) (2 * (qx q * qz q + qw q * qy q) / qnorm2 q)
    (2 * (qx q * qy q + qw q * qz q) / qnorm2 q) (1 - 2 * (qx q * qx q + qz q * qz q) / qnorm2 q) (2 * (qy q * qz q - qw q * qx q) / qnorm2 q)
    (2 * (qx q * qz q - qw q * qy q) / qnorm2 q) (2 * (qy q * qz q + qw q * qx q) / qnorm2 q) (1 - 2 * (qx q * qx q + qy q * qy q) / qnorm2 q).
Proof.
  intros N. assert (S := sqrt_lt_R0 _ N). assert (X := sqrt_sqrt _ (Rlt_le _ _ N)).
  unfold qnormalized. cbv zeta. destruct (Rlt_dec 0 (qnorm2 q)); [|lra]. unfold quaternion_to_dcm. cbn [qw qx qy qz].
  set (n := sqrt _) in *. rewrite <- X. apply mat_ext; cbn [m00 m01 m02 m10 m11 m12 m20 m21 m22]; field; lra.
Qed.
