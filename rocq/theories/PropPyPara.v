(** C164: sensor parameters and distances in the Python tools. Models: PyParaModel, ConfigModel. Specification: ConfigSpec, EarthModel. *)
From Coq Require Import Reals List Lra Psatz QArith_base.
From Verif Require Import RealMath EarthModel EarthProofs ConfigModel ConfigSpec ConfigProofs PyInsModel PyInsProofs PyParaModel.
Open Scope R_scope.

(** the parameters are those of the programs (C44), in SI units *)
Theorem C164_parameters : forall f, let p := py_para f in
  arw p = per_sqrt_hour (deg_to_rad (f_arw f)) /\ vrw p = per_sqrt_hour (f_vrw f) /\
  (forall i, gb_std p i = per_hour (deg_to_rad (f_gb_std f i))) /\
  (forall i, gb_ini p i = per_hour (deg_to_rad (f_gb_ini f i))) /\
  (forall i, ab_std p i = f_ab_std f i / 100000) /\ (forall i, ab_ini p i = f_ab_ini f i / 100000) /\
  (forall i, gs_std p i = f_gs_std f i / 1000000) /\ (forall i, gs_ini p i = f_gs_ini f i / 1000000) /\
  (forall i, as_std p i = f_as_std f i / 1000000) /\ (forall i, as_ini p i = f_as_ini f i / 1000000) /\
  at_corr p = f_at_corr f * 3600 /\ gt_corr p = f_gt_corr f * 3600.
Proof. exact para_units. Qed.
Theorem C164_same_file : forall f, py_para f = load_para f.
Proof. reflexivity. Qed.
Print Assumptions C164_parameters.
Print Assumptions C164_same_file.

(** the distance of two places: never negative, zero for and only for the same place (away from the poles, longitudes as numbers),
    north and east counted from the second place to the first *)
Lemma radius_pos lat : 0 < y_RM lat /\ 0 < y_RN lat.
Proof. change (y_RM lat) with (RM lat). change (y_RN lat) with (RN lat). destruct (radii lat). lra. Qed.
Theorem C164_distance : forall lat lon lat2 lon2, -90 < lat < 90 ->
  let '(n, e, d) := py_distance_d (deg lat) (deg lon) (deg lat2) (deg lon2) in
  0 <= d /\ d * d = n * n + e * e /\ Rabs n <= d /\ Rabs e <= d /\ (d = 0 <-> lat = lat2 /\ lon = lon2) /\
  (0 < n <-> lat2 < lat) /\ (0 < e <-> lon2 < lon).
Proof.
  intros lat lon lat2 lon2 H. unfold py_distance_d. set (n := y_dN _ _). set (e := y_dE _ _ _).
  assert (P := PI_RGT_0). assert (Q := sqrt_pos (n * n + e * e)). assert (S := sqrt_sqrt (n * n + e * e) ltac:(nra)).
  set (d := sqrt _) in *. assert (A : forall x, x * x <= d * d -> Rabs x <= d).
  { intros x Hx. apply Rsqr_le_abs_0 in Hx. rewrite (Rabs_pos_eq d) in Hx by exact Q. exact Hx. }
  destruct (radius_pos (deg lat)) as [R1 R2].
  assert (C : 0 < cos (deg lat)) by (apply cos_gt_0; unfold deg; nra).
  assert (En : n = (lat - lat2) * (PI / 180 * y_RM (deg lat))) by (unfold n, y_dN, deg; field).
  assert (Ee : e = (lon - lon2) * (PI / 180 * y_RN (deg lat) * cos (deg lat))) by (unfold e, y_dE, deg; field).
  set (kn := PI / 180 * y_RM (deg lat)) in *. set (ke := PI / 180 * y_RN (deg lat) * cos (deg lat)) in *.
  assert (Kn : 0 < kn) by (apply Rmult_lt_0_compat; lra).
  assert (Ke : 0 < ke) by (apply Rmult_lt_0_compat; [apply Rmult_lt_0_compat; lra|exact C]).
  assert (Z : forall x k, 0 < k -> x * k = 0 -> x = 0) by (intros x k Hk Hx; apply Rmult_integral in Hx; lra).
  split; [exact Q|]. split; [exact S|]. split; [apply A; nra|]. split; [apply A; nra|]. split; [|split].
  - split; [intros D; rewrite D in S|intros [-> ->]].
    + assert (n * n = 0 /\ e * e = 0) as [N0 E0] by nra.
      assert (N1 : n = 0) by nra. assert (E1 : e = 0) by nra. rewrite En in N1. rewrite Ee in E1. apply Z in N1; [|exact Kn]. apply Z in E1; [|exact Ke]. lra.
    + assert (N1 : n = 0) by (rewrite En; ring). assert (E1 : e = 0) by (rewrite Ee; ring). unfold d. rewrite N1, E1. replace (0 * 0 + 0 * 0) with 0 by ring. apply sqrt_0.
  - rewrite En. split; intros X; nra.
  - rewrite Ee. split; intros X; nra.
Qed.
Print Assumptions C164_distance.
(** with heights: the same north and east, and the difference of heights *)
Theorem C164_space : forall n1 n2, let '(n, e, h, d) := py_distance n1 n2 in
  let '(n', e', d') := py_distance_d (y_lat n1) (y_lon n1) (y_lat n2) (y_lon n2) in
  n = n' /\ e = e' /\ h = y_h n1 - y_h n2 /\ 0 <= d /\ d * d = d' * d' + h * h /\ d' <= d.
Proof.
  intros n1 n2. unfold py_distance, py_distance_d. set (n := y_dN _ _). set (e := y_dE _ _ _). set (h := _ - _).
  rewrite !sqrt_sqrt by nra. split; [reflexivity|]. split; [reflexivity|]. split; [reflexivity|]. split; [apply sqrt_pos|]. split; [reflexivity|].
  apply sqrt_le_1_alt. nra.
Qed.
Print Assumptions C164_space.
(** north and east are arcs: angle times the radius of curvature of the meridian at the first place, and times the radius of its parallel *)
Theorem C164_metric : forall lat lon lat2 lon2, let '(n, e, _) := py_distance_d (deg lat) (deg lon) (deg lat2) (deg lon2) in
  n = deg (lat - lat2) * RM (deg lat) /\ e = deg (lon - lon2) * (RN (deg lat) * cos (deg lat)).
Proof. intros. unfold py_distance_d, y_dN, y_dE. change y_RM with RM. change y_RN with RN. unfold deg. split; field. Qed.
Print Assumptions C164_metric.
(** one minute of latitude and one of longitude on the equator *)
Example C164_case : -90 < 0 < 90 /\ f_at_corr (Build_para_file (15 / 100) (12 / 1000) (fun _ => 0) (fun _ => -60) (fun _ => 0) (fun _ => 0)
    (fun _ => 36 / 10) (fun _ => 2) (fun _ => 100) (fun _ => 100) 2 2) * 3600 = 7200.
Proof. split; [lra|]. cbn. lra. Qed.
