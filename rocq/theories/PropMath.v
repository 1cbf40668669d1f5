(** Conversions and earth model: C28-C35, C61. *)
From Coq Require Import Reals Lra.
From Verif Require Import RealMath EarthModel ConvertModel ConvertSpec ConvertProofs EarthProofs MathWrap.
Open Scope R_scope.

(** ** C28 rotation vectors *)
(** for rotations of at least half a turn the quaternion is exactly unit, has a nonnegative scalar part and
    is the exact quaternion up to sign *)
Theorem C28_closed_branch : forall v, PI <= vnorm v ->
  qnorm2 (rv_to_quaternion v) = 1 /\ 0 <= qw (rv_to_quaternion v) /\
  quaternion_to_dcm (rv_to_quaternion v) = quaternion_to_dcm (exact_quaternion v).
Proof. exact closed_branch. Qed.
Theorem C28_series_norm : forall v, vnorm v < PI ->
  1 - (vnorm v / 2) ^ 8 / 20160 <= qnorm2 (rv_to_quaternion v) <= 1.
Proof. exact series_norm. Qed.
Theorem C28_series_close : forall v, vnorm v < PI ->
  let t := vnorm v / 2 in
  let q := rv_to_quaternion v in let x := exact_quaternion v in
  Rabs (qw q - qw x) <= t ^ 8 / 40320 /\
  Rabs (qx q - qx x) <= t ^ 9 / 362880 /\ Rabs (qy q - qy x) <= t ^ 9 / 362880 /\ Rabs (qz q - qz x) <= t ^ 9 / 362880.
Proof. exact rv_series_close. Qed.
Print Assumptions C28_closed_branch.
Print Assumptions C28_series_norm.
Print Assumptions C28_series_close.
Example C28_case_closed : PI <= vnorm (V 4 0 0).
Proof. exact case_closed. Qed.
Example C28_case_series : vnorm (V 1 0 0) < PI /\ (vnorm (V 1 0 0) / 2) ^ 8 / 20160 < 1 / 1000000.
Proof. exact case_series. Qed.

(** ** C29 quaternion to matrix *)
Theorem C29_rotation : forall q, qnorm2 q = 1 -> rotation (quaternion_to_dcm q).
Proof. exact dcm_rotation. Qed.
Theorem C29_composition : forall p q, qnorm2 p = 1 -> qnorm2 q = 1 ->
  quaternion_to_dcm (qmul p q) = mmul (quaternion_to_dcm p) (quaternion_to_dcm q).
Proof. exact dcm_mul. Qed.
Theorem C29_rotates_vectors : forall q v, qnorm2 q = 1 -> mvec (quaternion_to_dcm q) v = qrotate q v.
Proof. exact dcm_rotate. Qed.
Print Assumptions C29_rotation.
Print Assumptions C29_composition.
Print Assumptions C29_rotates_vectors.
Example C29_case : qnorm2 (Q (1 / 2) (1 / 2) (- (1 / 2)) (1 / 2)) = 1 /\
  quaternion_to_dcm (Q (1 / 2) (1 / 2) (- (1 / 2)) (1 / 2)) = M 0 (-1) 0 0 0 (-1) 1 0 0.
Proof. exact case_dcm. Qed.

(** ** C30 Euler conversions agree *)
Theorem C30_direct_conversion : forall roll pitch heading,
  euler_to_dcm (V roll pitch heading) = attitude roll pitch heading /\ rotation (attitude roll pitch heading).
Proof. exact euler_direct. Qed.
Theorem C30_via_quaternion : forall e,
  qnorm2 (euler_to_quaternion e) = 1 /\ quaternion_to_dcm (euler_to_quaternion e) = euler_to_dcm e.
Proof. exact euler_via_quaternion. Qed.
Print Assumptions C30_direct_conversion.
Print Assumptions C30_via_quaternion.

(** ** C31 Euler round trip *)
Theorem C31_roundtrip_partial : forall roll pitch heading,
  - PI < roll <= PI -> - (PI / 2) < pitch < PI / 2 -> - PI < heading <= PI ->
  - (999 / 1000) < sin pitch < 999 / 1000 ->
  dcm_to_euler (attitude roll pitch heading) = Eu (Fin roll) (Fin pitch) heading.
Proof. exact euler_roundtrip_attitude. Qed.
Theorem C31_pitch_partial : forall roll pitch heading, - (PI / 2) <= pitch <= PI / 2 ->
  e_pitch (dcm_to_euler (attitude roll pitch heading)) = Fin pitch.
Proof. exact euler_pitch_attitude. Qed.
(** the claim that the conversion always yields numbers is false: pointing up, the roll is not a number *)
Theorem C31_always_numbers_refuted :
  ~ (forall roll pitch heading, exists r, e_roll (dcm_to_euler (attitude roll pitch heading)) = Fin r).
Proof. exact euler_not_number. Qed.
(** and pointing straight down the heading is lost: two attitudes with different heading give the same result *)
Theorem C31_vertical_down_refuted :
  ~ (forall roll1 heading1 roll2 heading2,
       dcm_to_euler (attitude roll1 (- (PI / 2)) heading1) = dcm_to_euler (attitude roll2 (- (PI / 2)) heading2) ->
       attitude roll1 (- (PI / 2)) heading1 = attitude roll2 (- (PI / 2)) heading2).
Proof. exact euler_down_lost. Qed.
(** pointing straight up it is not *)
Theorem C31_vertical_up : forall roll1 heading1 roll2 heading2,
  dcm_to_euler (attitude roll1 (PI / 2) heading1) = dcm_to_euler (attitude roll2 (PI / 2) heading2) ->
  attitude roll1 (PI / 2) heading1 = attitude roll2 (PI / 2) heading2.
Proof. exact euler_up_kept. Qed.
Print Assumptions C31_roundtrip_partial.
Print Assumptions C31_pitch_partial.
Print Assumptions C31_always_numbers_refuted.
Print Assumptions C31_vertical_down_refuted.
Print Assumptions C31_vertical_up.
Example C31_case : - PI < PI / 3 <= PI /\ - (PI / 2) < PI / 6 < PI / 2 /\ - PI < PI <= PI /\
  - (999 / 1000) < sin (PI / 6) < 999 / 1000.
Proof. exact case_euler. Qed.

(** ** C32 position quaternion *)
Theorem C32_roundtrip_partial : forall lat lon, - (PI / 2) <= lat < PI / 2 -> - PI < lon < PI ->
  qne_to_lla (lla_to_qne lat lon) = LL (Fin lat) lon.
Proof. exact lla_roundtrip_no_pole. Qed.
Theorem C32_quaternion : forall lat lon,
  qnorm2 (lla_to_qne lat lon) = 1 /\ quaternion_to_dcm (lla_to_qne lat lon) = lla_to_cne lat lon.
Proof. exact qne_correct. Qed.
(** the position matrix has north, east and down as its columns *)
Theorem C32_position_matrix : forall lat lon,
  mvec (lla_to_cne lat lon) (V 1 0 0) = north lat lon /\ mvec (lla_to_cne lat lon) (V 0 1 0) = east lat lon /\
  mvec (lla_to_cne lat lon) (V 0 0 1) = vneg (up lat lon).
Proof. exact cne_columns. Qed.
(** on the antimeridian the latitude is lost *)
Theorem C32_antimeridian_refuted :
  ~ (forall lat lon, - (PI / 2) < lat < PI / 2 -> - PI < lon <= PI ->
       qne_to_lla (lla_to_qne lat lon) = LL (Fin lat) lon).
Proof. exact lla_antimeridian_refuted. Qed.
Print Assumptions C32_roundtrip_partial.
Print Assumptions C32_quaternion.
Print Assumptions C32_position_matrix.
Print Assumptions C32_antimeridian_refuted.
Example C32_case : - (PI / 2) <= PI / 6 < PI / 2 /\ - PI < 2 < PI.
Proof. exact case_lla. Qed.

(** ** C33 geodetic to Cartesian *)
Theorem C33_on_ellipsoid : forall lat lon, on_ellipsoid (lla_to_xyz (V lat lon 0)).
Proof. exact xyz_on_ellipsoid. Qed.
Theorem C33_height : forall lat lon h k,
  vsub (lla_to_xyz (V lat lon k)) (lla_to_xyz (V lat lon h)) = vscale (k - h) (up lat lon) /\
  dot (up lat lon) (up lat lon) = 1 /\
  exists c, 0 < c /\ gradient (lla_to_xyz (V lat lon 0)) = vscale c (up lat lon).
Proof. exact xyz_height_normal. Qed.
(** and the ellipsoid is that of WGS 84: semi major axis 6378137 m, flattening 1 / 298.257223563 *)
Theorem C33_wgs84 : semi_major = 6378137 /\ let f := 1 / (298257223563 / 10 ^ 9) in Rabs (e2 - (2 * f - f * f)) < 2 / 10 ^ 14.
Proof. split; [unfold semi_major; lra|]. cbv zeta. unfold e2. apply Rabs_def1; lra. Qed.
Print Assumptions C33_on_ellipsoid.
Print Assumptions C33_wgs84.
Print Assumptions C33_height.

(** ** C34 earth model *)
Theorem C34_radii : forall lat, 6335439 < RM lat <= RN lat /\ 6378137 <= RN lat < 6399595.
Proof. exact radii. Qed.
Theorem C34_gravity_positive : forall lat h, 0 < gravity lat h.
Proof. exact gravity_positive. Qed.
Theorem C34_gravity_latitude : forall lat1 lat2, 0 <= lat1 <= lat2 -> lat2 <= PI / 2 ->
  9780 / 1000 <= gravity lat1 0 <= gravity lat2 0 /\ gravity lat2 0 <= 9833 / 1000.
Proof. exact gravity_equator_to_pole. Qed.
Theorem C34_gravity_height : forall lat h1 h2, 0 <= h1 <= h2 -> h2 <= 2000000 -> gravity lat h2 <= gravity lat h1.
Proof. exact gravity_height. Qed.
Print Assumptions C34_radii.
Print Assumptions C34_gravity_positive.
Print Assumptions C34_gravity_latitude.
Print Assumptions C34_gravity_height.

(** ** C35 displacements *)
Theorem C35_zero_for_equal_points : forall lat lon h, distance6 lat lon lat lon h h = vzero.
Proof. exact distance6_equal. Qed.
Theorem C35_signs_partial : forall lat1 lon1 lat2 lon2 h1 h2,
  - (PI / 2) < lat1 < PI / 2 -> - (PI / 2) < lat2 < PI / 2 -> -6000000 < h1 -> -6000000 < h2 ->
  let d := distance6 lat1 lon1 lat2 lon2 h1 h2 in
  (0 < vx d <-> lat2 < lat1) /\ (vx d = 0 <-> lat1 = lat2) /\
  (0 < vy d <-> lon2 < lon1) /\ (vy d = 0 <-> lon1 = lon2) /\
  (0 < vz d <-> h2 < h1) /\ (vz d = 0 <-> h1 = h2).
Proof. exact distance6_signs. Qed.
(** north and east are counted from the second point to the first, down from the first to the second: the
    three components are not a displacement in either direction *)
Theorem C35_direction_refuted :
  ~ (forall lat1 lon1 lat2 lon2 h1 h2,
       - (PI / 2) < lat1 < PI / 2 -> - (PI / 2) < lat2 < PI / 2 -> 0 <= h1 -> 0 <= h2 ->
       let d := distance6 lat1 lon1 lat2 lon2 h1 h2 in
       (0 < vx d <-> lat1 < lat2) /\ (0 < vz d <-> h2 < h1)) /\
  ~ (forall lat1 lon1 lat2 lon2 h1 h2,
       - (PI / 2) < lat1 < PI / 2 -> - (PI / 2) < lat2 < PI / 2 -> 0 <= h1 -> 0 <= h2 ->
       let d := distance6 lat1 lon1 lat2 lon2 h1 h2 in
       (0 < vx d <-> lat2 < lat1) /\ (0 < vz d <-> h1 < h2)).
Proof. exact distance6_direction. Qed.
(** the variant without heights does not return zero for equal points *)
Theorem C35_no_height_variant_refuted : ~ (forall lat lon, distance4 lat lon lat lon = vzero).
Proof. exact distance4_wrong. Qed.
(** its north part has the sign of the latitude difference, and is (lat1 - lat2) times the radius of curvature *)
Theorem C35_no_height_north : forall lat1 lon1 lat2 lon2, let d := distance4 lat1 lon1 lat2 lon2 in
  vx d = RM lat1 * (lat1 - lat2) /\ (0 < vx d <-> lat2 < lat1) /\ (vx d = 0 <-> lat1 = lat2) /\ vz d = 0.
Proof. exact distance4_north. Qed.
Print Assumptions C35_zero_for_equal_points.
Print Assumptions C35_no_height_north.
Print Assumptions C35_signs_partial.
Print Assumptions C35_direction_refuted.
Print Assumptions C35_no_height_variant_refuted.
Example C35_case : - (PI / 2) < 1 / 2 < PI / 2 /\ -6000000 < 100.
Proof. exact case_distance. Qed.

(** ** C61 rotation vector to matrix *)
Theorem C61_same_rotation : forall v, v <> vzero -> rv_to_DCM v = Some (quaternion_to_dcm (exact_quaternion v)).
Proof. exact rv_dcm. Qed.
Theorem C61_zero_vector_refuted : ~ (forall v, exists m, rv_to_DCM v = Some m).
Proof. exact rv_dcm_zero. Qed.
Print Assumptions C61_same_rotation.
Print Assumptions C61_zero_vector_refuted.
Example C61_case : V 1 2 3 <> vzero.
Proof. exact case_nonzero. Qed.
