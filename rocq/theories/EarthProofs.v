(** Proofs about Src/Earth.cpp and Convert::lla_to_xyz. *)
From Coq Require Import Reals Lra Psatz.
From Verif Require Import RealMath EarthModel ConvertModel ConvertSpec.
Open Scope R_scope.

Lemma e2_range : 669 / 100000 < e2 < 670 / 100000.
Proof. unfold e2. lra. Qed.
Lemma e2_val : e2 = 669437999013 / 10 ^ 14. Proof. reflexivity. Qed.

Lemma sin_sq lat : 0 <= sin lat * sin lat <= 1.
Proof. assert (H := sin2_cos2 lat). unfold Rsqr in H. nra. Qed.

Lemma root_range lat : 1 - e2 <= 1 - e2 * sin lat * sin lat <= 1.
Proof. assert (H := sin_sq lat). assert (E := e2_range). nra. Qed.

Lemma sqrt_e2_low : 996647 / 1000000 < sqrt (1 - e2).
Proof.
  assert (E := e2_range). rewrite <- (sqrt_square (996647 / 1000000)) by lra. apply sqrt_lt_1; unfold e2; lra.
Qed.

Lemma root_sqrt lat : 996647 / 1000000 < sqrt (1 - e2 * sin lat * sin lat) <= 1.
Proof.
  assert (Rg := root_range lat). assert (E := e2_range). split.
  - eapply Rlt_le_trans; [apply sqrt_e2_low|]. apply sqrt_le_1; lra.
  - assert (X : sqrt (1 - e2 * sin lat * sin lat) <= sqrt 1) by (apply sqrt_le_1; lra). rewrite sqrt_1 in X. exact X.
Qed.

Lemma RN_bounds lat : semi_major <= RN lat <= semi_major / sqrt (1 - e2).
Proof.
  unfold RN. cbv zeta. assert (S := root_sqrt lat). assert (Rg := root_range lat). assert (E := e2_range).
  assert (L := sqrt_e2_low). unfold semi_major. split.
  - apply Rmult_le_reg_r with (sqrt (1 - e2 * sin lat * sin lat)); [lra|].
    unfold Rdiv. rewrite (Rmult_assoc _ (/ _)), Rinv_l by lra. lra.
  - apply Rmult_le_compat_l; [lra|]. apply Rinv_le_contravar; [lra|]. apply sqrt_le_1; lra.
Qed.

Lemma RM_bounds lat : semi_major * (1 - e2) <= RM lat <= semi_major / sqrt (1 - e2).
Proof.
  unfold RM. assert (S := root_sqrt lat). assert (Rg := root_range lat). assert (E := e2_range).
  assert (L := sqrt_e2_low). unfold semi_major. cbv zeta.
  set (x := 1 - e2 * sin lat * sin lat) in *. set (y := sqrt x) in *.
  assert (Y : y * y = x) by (apply sqrt_sqrt; lra).
  assert (X0 : 0 < x * y) by nra. split.
  - apply Rmult_le_reg_r with (x * y); [lra|].
    unfold Rdiv. rewrite (Rmult_assoc _ (/ _)), Rinv_l by lra.
    assert (x * y <= 1) by nra. assert (0 < 6378137 * (1 - e2)) by lra. nra.
  - set (z := sqrt (1 - e2)) in *. assert (Z : z * z = 1 - e2) by (apply sqrt_sqrt; lra).
    assert (ZY : z <= y) by (apply sqrt_le_1; lra).
    apply Rmult_le_reg_r with (x * y * z); [nra|].
    replace (6378137 * (1 - e2) / (x * y) * (x * y * z)) with (6378137 * ((1 - e2) * z)) by (field; lra).
    replace (6378137 / z * (x * y * z)) with (6378137 * (x * y)) by (field; lra).
    apply Rmult_le_compat_l; [lra|]. rewrite <- Z, <- Y. assert (z * z <= y * y) by nra. nra.
Qed.

Lemma RM_le_RN lat : RM lat <= RN lat.
Proof.
  unfold RM, RN. cbv zeta. assert (S := root_sqrt lat). assert (Rg := root_range lat). assert (E := e2_range).
  set (x := 1 - e2 * sin lat * sin lat) in *. set (y := sqrt x) in *. unfold semi_major.
  apply Rmult_le_reg_r with (x * y); [nra|].
  replace (6378137 * (1 - e2) / (x * y) * (x * y)) with (6378137 * (1 - e2)) by (field; lra).
  replace (6378137 / y * (x * y)) with (6378137 * x) by (field; lra). lra.
Qed.

Lemma radii lat : 6335439 < RM lat <= RN lat /\ 6378137 <= RN lat < 6399595.
Proof.
  assert (A := RM_bounds lat). assert (B := RN_bounds lat). assert (C := RM_le_RN lat). assert (L := sqrt_e2_low).
  assert (U : semi_major / sqrt (1 - e2) < 6399595).
  { unfold semi_major. apply Rmult_lt_reg_r with (sqrt (1 - e2)); [lra|].
    unfold Rdiv. rewrite Rmult_assoc, Rinv_l by lra. nra. }
  assert (6335439 < semi_major * (1 - e2)) by (unfold semi_major, e2; lra).
  unfold semi_major in *. repeat split; lra.
Qed.

(** the usual closed forms *)
Lemma RN_closed lat : RN lat * sqrt (1 - e2 * (sin lat)²) = semi_major.
Proof.
  unfold RN, Rsqr. assert (S := root_sqrt lat). rewrite <- Rmult_assoc. field. lra.
Qed.

Lemma gravity_positive lat h : 0 < gravity lat h.
Proof.
  unfold gravity. cbv zeta. assert (S := sin_sq lat). set (s := sin lat * sin lat) in *.
  assert (0 <= s * s) by nra.
  unfold g0.
  assert (9 < 97803267715 / 10 ^ 10 * (1 + 52790414 / 10 ^ 10 * s + 232718 / 10 ^ 10 * s * s)) by nra.
  set (k := 43977311 / 10 ^ 16 * s - 30876910891 / 10 ^ 16).
  assert (- (31 / 10 ^ 7) < k <= 0) by (unfold k; lra).
  assert (0 < 9 + h * k + 7211 / 10 ^ 16 * h * h); [|lra].
  assert (A := Rle_0_sqr (h * (8 / 10 ^ 7) - 2)). assert (B := Rle_0_sqr (h * (8 / 10 ^ 7) + 2)).
  unfold Rsqr in A, B. assert (0 <= h * h) by nra.
  destruct (Rle_dec 0 h).
  - assert (0 <= h * (k + 31 / 10 ^ 7)) by (apply Rmult_le_pos; lra). lra.
  - assert (0 <= - h * (k + 31 / 10 ^ 7)) by (apply Rmult_le_pos; lra).
    assert (0 <= h * k) by nra. lra.
Qed.

Lemma gravity_latitude lat1 lat2 : (sin lat1)² <= (sin lat2)² -> gravity lat1 0 <= gravity lat2 0.
Proof.
  unfold gravity, Rsqr. cbv zeta. assert (S1 := sin_sq lat1). assert (S2 := sin_sq lat2).
  set (s := sin lat1 * sin lat1) in *. set (t := sin lat2 * sin lat2) in *. intros.
  rewrite !Rmult_0_l, !Rmult_0_r, !Rplus_0_r. unfold g0.
  apply Rmult_le_compat_l; [lra|]. nra.
Qed.

Lemma gravity_equator_pole : forall lat, gravity 0 0 = g0 /\ g0 <= gravity lat 0 <= 9833 / 1000.
Proof.
  intros lat. unfold gravity. cbv zeta. rewrite sin_0. assert (S := sin_sq lat).
  set (s := sin lat * sin lat) in *. unfold g0. repeat split; nra.
Qed.

Lemma gravity_height lat h1 h2 : 0 <= h1 <= h2 -> h2 <= 2000000 -> gravity lat h2 <= gravity lat h1.
Proof.
  intros H K. unfold gravity. cbv zeta. assert (S := sin_sq lat). set (s := sin lat * sin lat) in *.
  assert (h2 * (43977311 / 10 ^ 16 * s - 30876910891 / 10 ^ 16) + 7211 / 10 ^ 16 * h2 * h2 <=
          h1 * (43977311 / 10 ^ 16 * s - 30876910891 / 10 ^ 16) + 7211 / 10 ^ 16 * h1 * h1); [|lra].
  assert ((h2 - h1) * ((43977311 / 10 ^ 16 * s - 30876910891 / 10 ^ 16) + 7211 / 10 ^ 16 * (h1 + h2)) <= 0); [|lra].
  assert ((43977311 / 10 ^ 16 * s - 30876910891 / 10 ^ 16) + 7211 / 10 ^ 16 * (h1 + h2) <= 0) by lra.
  nra.
Qed.

(** ** geodetic to Cartesian *)
Lemma xyz_on_ellipsoid lat lon : on_ellipsoid (lla_to_xyz (V lat lon 0)).
Proof.
  unfold on_ellipsoid, lla_to_xyz. cbn [vx vy vz]. rewrite !Rplus_0_r.
  assert (E := e2_range). assert (S := root_sqrt lat). assert (Rg := root_range lat).
  unfold RN. cbv zeta.
  assert (Y : sqrt (1 - e2 * sin lat * sin lat) * sqrt (1 - e2 * sin lat * sin lat) = 1 - e2 * sin lat * sin lat)
    by (apply sqrt_sqrt; lra).
  set (y := sqrt (1 - e2 * sin lat * sin lat)) in *.
  assert (H1 := sin2_cos2 lat). assert (H2 := sin2_cos2 lon). unfold Rsqr in *.
  assert (A : semi_major <> 0) by (unfold semi_major; lra).
  set (s := sin lat) in *. set (c := cos lat) in *. set (u := sin lon) in *. set (v := cos lon) in *.
  transitivity ((c * c * (u * u + v * v) + (1 - e2) * (s * s)) / (y * y)).
  - field. repeat split; lra.
  - rewrite H2, Y. replace (c * c) with (1 - s * s) by lra. field. lra.
Qed.

Lemma xyz_height lat lon h k :
  vsub (lla_to_xyz (V lat lon k)) (lla_to_xyz (V lat lon h)) = vscale (k - h) (up lat lon).
Proof. unfold lla_to_xyz, up. vring. Qed.

Lemma up_unit lat lon : dot (up lat lon) (up lat lon) = 1.
Proof.
  unfold up, dot; simpl. assert (H1 := sin2_cos2 lat). assert (H2 := sin2_cos2 lon). unfold Rsqr in *.
  transitivity (cos lat * cos lat * (sin lon * sin lon + cos lon * cos lon) + sin lat * sin lat); [ring|].
  rewrite H2. lra.
Qed.

Lemma up_normal lat lon : gradient (lla_to_xyz (V lat lon 0)) = vscale (RN lat / semi_major ^ 2) (up lat lon).
Proof.
  unfold gradient, lla_to_xyz, up. cbn [vx vy vz]. assert (E := e2_range).
  assert (A : semi_major <> 0) by (unfold semi_major; lra).
  apply vec_ext; simpl; field; repeat split; lra.
Qed.

(** ** displacements *)
Lemma distance6_equal lat lon h : distance6 lat lon lat lon h h = vzero.
Proof. unfold distance6, dN_h, dE_h, vzero. apply vec_ext; simpl; ring. Qed.

Lemma distance6_signs lat1 lon1 lat2 lon2 h1 h2 :
  - (PI / 2) < lat1 < PI / 2 -> - (PI / 2) < lat2 < PI / 2 -> -6000000 < h1 -> -6000000 < h2 ->
  let d := distance6 lat1 lon1 lat2 lon2 h1 h2 in
  (0 < vx d <-> lat2 < lat1) /\ (vx d = 0 <-> lat1 = lat2) /\
  (0 < vy d <-> lon2 < lon1) /\ (vy d = 0 <-> lon1 = lon2) /\
  (0 < vz d <-> h2 < h1) /\ (vz d = 0 <-> h1 = h2).
Proof.
  intros. unfold d, distance6, dN_h, dE_h; simpl. clear d.
  destruct (radii lat1) as [[A B] [C D]]. destruct (radii (lat1 / 2 + lat2 / 2)) as [_ [C' D']].
  assert (K : 0 < cos (lat1 / 2 + lat2 / 2)) by (apply cos_gt_0; lra).
  set (r := RM lat1 + (h1 / 2 + h2 / 2)). assert (0 < r) by (unfold r; lra).
  set (q := (RN (lat1 / 2 + lat2 / 2) + (h1 / 2 + h2 / 2)) * cos (lat1 / 2 + lat2 / 2)).
  assert (0 < q) by (unfold q; apply Rmult_lt_0_compat; lra).
  repeat split; intros; nra.
Qed.
