(** The attitude-only filter of a level unit at rest: what becomes of an error of the pitch. *)
From Coq Require Import Reals ZArith List Lia Lra Psatz.
From Verif Require Import RealMath EarthModel ConvertModel ConvertSpec ConvertProofs MathWrap SmoothModel AhrsModel AhrsProofs.
Import ListNotations.
Open Scope R_scope.

(** a sample of a level unit at rest: no rotation; [f] is the specific force along the third axis *)
Definition at_rest (ts f : R) (x : imu) : Prop := i_gyro x = vzero /\ i_acce x = V 0 0 (f * ts).
(** the filter after the pitch was set to p and n samples were taken *)
Definition levelled (ts p : R) (xs : nat -> imu) (n : nat) : ahrs :=
  ahrs_run (ahrs_new ts) (OpEuler (V 0 p 0) :: map (fun k => OpImu (xs k)) (seq 0 n)).
(** what it reports for the pitch *)
Definition pitch_of (s : ahrs) : num := e_pitch (ahrs_atti s).

Lemma levelled_S ts p xs n : levelled ts p xs (S n) = ahrs_imu (levelled ts p xs n) (xs n).
Proof.
  unfold levelled, ahrs_run. rewrite seq_S, map_app. cbn [fold_left]. rewrite fold_left_app. reflexivity.
Qed.

(** attitude quaternion of a pitch *)
Definition pq (p : R) : quat := Q (cos (p / 2)) 0 (sin (p / 2)) 0.
Lemma pq_dcm p : quaternion_to_dcm (pq p) = M (cos p) 0 (sin p) 0 1 0 (- sin p) 0 (cos p).
Proof.
  unfold quaternion_to_dcm, pq. assert (S := sin2_cos2 (p / 2)). unfold Rsqr in S.
  assert (A : sin p = 2 * sin (p / 2) * cos (p / 2)) by (rewrite <- sin_2a; f_equal; field).
  assert (B : cos p = 1 - 2 * sin (p / 2) * sin (p / 2)) by (rewrite <- cos_2a_sin; f_equal; field).
  apply mat_ext; simpl; rewrite ?A, ?B; ring.
Qed.

(** the turn of a rotation vector along the second axis *)
Definition turn_of (a : R) : R :=
  let m := a * a * (1 / 4) in
  2 * atan ((1 / 2 * (1 - m / 6 * (1 - m / 20 * (1 - m / 42))) * a) / (1 - m / 2 * (1 - m / 12 * (1 - m / 30)))).

Lemma poly_bounds a : Rabs a <= 1 / 10 -> let m := a * a * (1 / 4) in
  99 / 100 <= 1 - m / 2 * (1 - m / 12 * (1 - m / 30)) <= 1 /\ 99 / 100 <= 1 - m / 6 * (1 - m / 20 * (1 - m / 42)) <= 1.
Proof.
  intros H m. assert (M0 : 0 <= m <= 1 / 400).
  { unfold m. assert (a * a = Rabs a * Rabs a) by (rewrite <- Rabs_mult; symmetry; apply Rabs_pos_eq; nra).
    assert (0 <= Rabs a) by apply Rabs_pos. nra. }
  clearbody m.
  assert (0 <= 1 - m / 12 * (1 - m / 30) <= 1) by nra.
  assert (0 <= 1 - m / 20 * (1 - m / 42) <= 1) by nra.
  nra.
Qed.

Lemma turn_lower a a0 : 0 <= a0 -> a0 <= a -> a <= 1 / 10 -> 2 * atan (a0 / 4) <= turn_of a.
Proof.
  intros H0 H1 H2. unfold turn_of. apply Rmult_le_compat_l; [lra|].
  destruct (poly_bounds a) as [[C1 C2] [S1 S2]]; [rewrite Rabs_pos_eq; lra|]. cbv zeta in *.
  set (c := 1 - _ / 2 * _) in *. set (s := 1 - _ / 6 * _) in *. clearbody c s.
  assert (L : a0 / 4 <= 1 / 2 * s * a / c).
  { apply (Rmult_le_reg_r c); [lra|]. unfold Rdiv. rewrite (Rmult_assoc (1 * / 2 * s * a)), Rinv_l by lra. nra. }
  destruct L as [L|L]; [left; apply atan_increasing; exact L|rewrite L; lra].
Qed.

Lemma atan_le_double x : 0 <= x -> x <= 1 / 4 -> atan x <= 2 * x.
Proof.
  intros H0 H1. destruct (Req_dec x 0) as [->|N]; [rewrite atan_0; lra|].
  assert (T : x < tan (2 * x)).
  { rewrite tan_def. assert (P := PI_gt_3). assert (C : 0 < cos (2 * x)) by (apply cos_gt_0; lra).
    assert (C1 := COS_bound (2 * x)). assert (S : x < sin (2 * x)).
    { destruct (SIN (2 * x)) as [S _]; [lra|lra|]. unfold sin_lb, sin_approx, sum_f_R0, sin_term in S. simpl in S.
      assert (x * x <= 1 / 16) by nra. assert (0 <= x * x) by nra. assert (0 <= x * x * x) by (apply Rmult_le_pos; lra).
      assert (0 <= x * x * x * x * x) by (repeat apply Rmult_le_pos; lra).
      assert (x * x * x * x * x * x * x <= x * x * x * x * x / 16) by nra.
      assert (x * x * x <= x / 16) by nra.
      nra. }
    apply (Rmult_lt_reg_r (cos (2 * x))); [exact C|]. unfold Rdiv. rewrite Rmult_assoc, Rinv_l by lra. nra. }
  assert (P := PI_gt_3). apply atan_increasing in T. rewrite atan_tan in T by lra. lra.
Qed.

Lemma turn_upper a : 0 <= a -> a <= 1 / 10 -> turn_of a <= 205 / 100 * a.
Proof.
  intros H1 H2. unfold turn_of.
  destruct (poly_bounds a) as [[C1 C2] [S1 S2]]; [rewrite Rabs_pos_eq; lra|]. cbv zeta in *.
  set (c := 1 - _ / 2 * _) in *. set (s := 1 - _ / 6 * _) in *. clearbody c s.
  assert (B : 0 <= 1 / 2 * s * a / c).
  { apply Rmult_le_pos; [nra|]. left. apply Rinv_0_lt_compat. lra. }
  assert (L : 1 / 2 * s * a / c <= 51 / 100 * a).
  { apply (Rmult_le_reg_r c); [lra|]. unfold Rdiv. rewrite (Rmult_assoc (1 * / 2 * s * a)), Rinv_l by lra. nra. }
  assert (A := atan_le_double _ B). lra.
Qed.

Lemma turn_odd a : turn_of (- a) = - turn_of a.
Proof.
  unfold turn_of. replace (- a * - a) with (a * a) by ring.
  replace (1 / 2 * (1 - a * a * (1 / 4) / 6 * (1 - a * a * (1 / 4) / 20 * (1 - a * a * (1 / 4) / 42))) * - a /
    (1 - a * a * (1 / 4) / 2 * (1 - a * a * (1 / 4) / 12 * (1 - a * a * (1 / 4) / 30)))) with
    (- (1 / 2 * (1 - a * a * (1 / 4) / 6 * (1 - a * a * (1 / 4) / 20 * (1 - a * a * (1 / 4) / 42))) * a /
    (1 - a * a * (1 / 4) / 2 * (1 - a * a * (1 / 4) / 12 * (1 - a * a * (1 / 4) / 30))))) by (unfold Rdiv; ring).
  rewrite atan_opp. ring.
Qed.

(** normalising (c, s) gives cosine and sine of its angle *)
Lemma unit_angle c s : 0 < c -> let n := sqrt (c * c + s * s) in c / n = cos (atan (s / c)) /\ s / n = sin (atan (s / c)).
Proof.
  intros H n. assert (P : 0 < c * c + s * s) by nra. assert (N : 0 < n) by (apply sqrt_lt_R0; exact P).
  set (t := atan (s / c)). assert (Bt := atan_bound (s / c)). fold t in Bt.
  assert (Ct : 0 < cos t) by (apply cos_gt_0; lra).
  assert (T : sin t / cos t = s / c) by (rewrite <- tan_def; apply tan_atan).
  assert (E : s * cos t = c * sin t).
  { apply (Rmult_eq_compat_r (c * cos t)) in T. field_simplify in T; try lra. }
  assert (U := sin2_cos2 t). unfold Rsqr in U.
  assert (NN : n * n = c * c + s * s) by (apply sqrt_sqrt; lra).
  assert (K : c = n * cos t).
  { assert (Q1 : c * c = (n * cos t) * (n * cos t)).
    { replace ((n * cos t) * (n * cos t)) with ((n * n) * (cos t * cos t)) by ring. rewrite NN.
      replace ((c * c + s * s) * (cos t * cos t)) with (c * c * (cos t * cos t) + (s * cos t) * (s * cos t)) by ring. rewrite E.
      replace (c * c * (cos t * cos t) + c * sin t * (c * sin t)) with (c * c * (sin t * sin t + cos t * cos t)) by ring. rewrite U. ring. }
    assert (0 < n * cos t) by (apply Rmult_lt_0_compat; lra). nra. }
  assert (L : s = n * sin t). { apply (Rmult_eq_reg_r (cos t)); [|lra]. rewrite E. rewrite K at 1. ring. }
  split; [rewrite K at 1|rewrite L at 1]; field; lra.
Qed.

Lemma pq_turn p a : Rabs a <= 1 / 10 -> qnormalized (qmul (pq p) (rv_to_quaternion (V 0 a 0))) = pq (p + turn_of a).
Proof.
  intros H. unfold rv_to_quaternion. simpl. assert (P := PI_gt_3).
  assert (A2 : a * a <= 1 / 100).
  { assert (a * a = Rabs a * Rabs a) by (rewrite <- Rabs_mult; symmetry; apply Rabs_pos_eq; nra).
    assert (0 <= Rabs a) by apply Rabs_pos. nra. }
  replace (0 * 0 + a * a + 0 * 0) with (a * a) by ring.
  destruct (Rlt_dec (a * a) (PI * PI)) as [_|F]; [|nra].
  destruct (poly_bounds a H) as [[C1 C2] [S1 S2]]. cbv zeta in *. unfold turn_of. cbv zeta.
  set (c := 1 - _ / 2 * _) in *. set (s1 := 1 - _ / 6 * _) in *. clearbody c s1.
  set (s := 1 / 2 * s1 * a) in *.
  replace (1 / 2 * s1 * 0) with 0 by ring.
  destruct (unit_angle c s) as [K1 K2]; [lra|]. cbv zeta in *.
  set (t := atan (s / c)) in *.
  assert (N : qnorm2 (qmul (pq p) (Q c 0 s 0)) = c * c + s * s).
  { rewrite qnorm2_mul. unfold qnorm2, pq; simpl. assert (U := sin2_cos2 (p / 2)). unfold Rsqr in U. nra. }
  unfold qnormalized. rewrite N. destruct (Rlt_dec 0 (c * c + s * s)) as [_|F]; [|nra].
  set (n := sqrt (c * c + s * s)) in *. clearbody t. unfold pq, qmul; simpl.
  replace ((p + 2 * t) / 2) with (p / 2 + t) by field. rewrite cos_plus, sin_plus, <- K1, <- K2.
  apply quat_ext; simpl; unfold Rdiv; ring.
Qed.

Lemma pq_pitch p : - (PI / 2) < p < PI / 2 -> e_pitch (dcm_to_euler (quaternion_to_dcm (pq p))) = Fin p.
Proof.
  intros H. rewrite pq_dcm. unfold dcm_to_euler; simpl.
  assert (C : 0 < cos p) by (apply cos_gt_0; lra).
  assert (E : xatan (xdiv (- - sin p) (sqrt (0 * 0 + cos p * cos p))) = Fin p).
  { replace (0 * 0 + cos p * cos p) with (Rsqr (cos p)) by (unfold Rsqr; ring). rewrite sqrt_Rsqr by lra.
    unfold xdiv. destruct (Req_EM_T (cos p) 0); [lra|]. simpl. f_equal. rewrite Ropp_involutive, <- tan_def. apply atan_tan. lra. }
  rewrite E. destruct (Rle_dec _ _); [reflexivity|]. destruct (Rle_dec _ _); reflexivity.
Qed.

(** ** one sample *)
Lemma PI_lower : 309 / 100 < PI.
Proof.
  destruct (Rlt_dec (309 / 100) PI) as [h|h]; [exact h|]. exfalso. assert (P := PI_gt_3).
  assert (C : cos (309 / 200) <= 0) by (apply cos_le_0; lra).
  destruct (cos_taylor (309 / 200)) as [B _]; [lra|]. lra.
Qed.
Definition state (ts p j : R) (s : ahrs) : Prop := s = Ah ts (pq p) (quaternion_to_dcm (pq p)) (V 0 j 0).

Lemma clamp_id x : Rabs x <= a_max -> clamp x = x.
Proof. intros H. assert (-a_max <= x <= a_max) by (unfold Rabs in H; destruct (Rcase_abs x); lra). unfold clamp. destruct (Rlt_dec _ _); [lra|]. destruct (Rlt_dec _ _); lra. Qed.
Lemma clamp_0 : clamp 0 = 0. Proof. apply clamp_id. rewrite Rabs_R0. pose proof a_max_pos. lra. Qed.

Lemma beta_vals : a_Kp = 4292 / 100000 /\ a_Ki = 4605316 / 10000000000.
Proof. unfold a_Kp, a_Ki, a_beta. split; field. Qed.
Lemma a_max_val : a_max < 2 / 100. Proof. unfold a_max. pose proof ConvertProofs.PI_lt. lra. Qed.

(** f: specific force along the third axis; w = 1 or -1 its sign *)
Lemma step s ts p j f w x : state ts p j s -> 0 < ts -> 1 / 2 < Rabs f -> f = w * Rabs f -> w * w = 1 -> at_rest ts f x ->
  let j1 := j + a_Ki * ts * (w * sin p) in let a := - (ts * (a_Kp * (w * sin p) + j1)) in
  Rabs a <= 1 / 10 -> state ts (p + turn_of a) (clamp j1) (ahrs_imu s x).
Proof.
  intros -> T F W W2 [G A] j1 a B. unfold state, ahrs_imu. rewrite G, A. unfold ahrs_update. cbn [a_ts a_qnb a_Cnb a_int].
  assert (N : vnorm (V 0 0 (f * ts)) = Rabs f * ts).
  { unfold vnorm, dot; simpl. replace (0 * 0 + 0 * 0 + f * ts * (f * ts)) with (Rsqr (f * ts)) by (unfold Rsqr; ring).
    rewrite sqrt_Rsqr_abs, Rabs_mult. rewrite (Rabs_pos_eq ts); lra. }
  rewrite N. replace (Rabs f * ts / ts) with (Rabs f) by (field; lra).
  destruct (Rlt_dec (1 / 2) (Rabs f)) as [_|?]; [|lra].
  assert (V1 : vdiv (V 0 0 (f * ts)) (Rabs f * ts) = V 0 0 w).
  { apply vec_ext; simpl; [field; lra|field; lra|]. rewrite W at 1. field. lra. }
  rewrite V1. rewrite pq_dcm. cbn [m20 m21 m22].
  assert (X : cross (V (- sin p) 0 (cos p)) (V 0 0 w) = V 0 (w * sin p) 0) by (apply vec_ext; simpl; ring).
  rewrite X.
  assert (I : vadd (V 0 j 0) (vscale (a_Ki * ts) (V 0 (w * sin p) 0)) = V 0 j1 0) by (apply vec_ext; simpl; unfold j1; ring).
  rewrite I.
  assert (R1 : vsub vzero (vscale ts (vadd (vscale a_Kp (V 0 (w * sin p) 0)) (V 0 j1 0))) = V 0 a 0).
  { apply vec_ext; simpl; unfold a; ring. }
  rewrite R1, pq_turn by exact B. cbn [vx vy vz]. rewrite clamp_0. reflexivity.
Qed.

Lemma start ts p : state ts p 0 (ahrs_run (ahrs_new ts) [OpEuler (V 0 p 0)]).
Proof.
  unfold state, ahrs_run. simpl. unfold ahrs_set_euler. cbn [a_ts a_int ahrs_new].
  assert (E : euler_to_quaternion (V 0 p 0) = pq p).
  { unfold euler_to_quaternion, pq; simpl. replace (0 / 2) with 0 by field. rewrite cos_0, sin_0. apply quat_ext; simpl; ring. }
  rewrite E. reflexivity.
Qed.

Lemma clamp_neg j : j <= 0 -> clamp j <= 0 /\ - a_max <= clamp j.
Proof. intros H. pose proof a_max_pos. unfold clamp. destruct (Rlt_dec _ _); [lra|]. destruct (Rlt_dec _ _); lra. Qed.
Lemma clamp_pos j : 0 <= j -> 0 <= clamp j /\ clamp j <= a_max.
Proof. intros H. pose proof a_max_pos. unfold clamp. destruct (Rlt_dec _ _); [lra|]. destruct (Rlt_dec _ _); lra. Qed.

(** the third axis points down and the specific force up: the pitch grows *)
Lemma step_down s ts p j f x p0 : state ts p j s -> 0 < ts <= 1 -> f < - (1 / 2) -> at_rest ts f x ->
  0 < p0 -> p0 <= p <= 7 / 5 -> - a_max <= j <= 0 ->
  exists q i, state ts q i (ahrs_imu s x) /\ - a_max <= i <= 0 /\ p + 2 * atan (ts * a_Kp * sin p0 / 4) <= q /\ q < PI / 2.
Proof.
  intros St T F A P0 Pp J. assert (P := PI2_3_2). destruct beta_vals as [KP KI]. pose proof a_max_val as AM.
  assert (P309 : 309 / 100 < PI) by (pose proof PI_lower; lra).
  assert (S1 : sin p0 <= sin p). { destruct Pp as [[Pp1|Pp1] Pp2]; [left; apply sin_increasing_1; lra|rewrite Pp1; lra]. }
  assert (S0 : 0 < sin p0) by (apply sin_gt_0; lra). assert (SB := SIN_bound p).
  set (j1 := j + a_Ki * ts * (-1 * sin p)). set (a := - (ts * (a_Kp * (-1 * sin p) + j1))).
  assert (T1 : 0 <= ts * sin p <= 1) by nra.
  assert (T0 : ts * sin p0 <= ts * sin p) by (apply Rmult_le_compat_l; lra).
  assert (J1 : - (21 / 1000) <= j1 <= 0). { unfold j1. rewrite KI. replace (4605316 / 10000000000 * ts * (-1 * sin p)) with (- (4605316 / 10000000000) * (ts * sin p)) by ring. lra. }
  assert (T2 : 0 <= ts * - j1 <= 21 / 1000) by nra.
  assert (A0 : ts * a_Kp * sin p0 <= a <= 7 / 100).
  { unfold a. rewrite KP. replace (- (ts * (4292 / 100000 * (-1 * sin p) + j1))) with (4292 / 100000 * (ts * sin p) + ts * - j1) by ring.
    replace (ts * (4292 / 100000) * sin p0) with (4292 / 100000 * (ts * sin p0)) by ring. lra. }
  assert (A1 : 0 <= ts * a_Kp * sin p0) by (rewrite KP; nra).
  assert (Ab : Rabs a <= 1 / 10) by (rewrite Rabs_pos_eq; lra).
  exists (p + turn_of a), (clamp j1). split.
  { apply (step s ts p j f (-1) x); auto; try (rewrite Rabs_left by lra); lra. }
  split; [destruct (clamp_neg j1); lra|]. split; [apply Rplus_le_compat_l; apply turn_lower; lra|].
  assert (turn_of a <= 205 / 100 * a) by (apply turn_upper; lra). lra.
Qed.

(** the third axis and the specific force point up: a positive pitch becomes smaller *)
Lemma step_up s ts p j f x p0 : state ts p j s -> 0 < ts <= 1 -> 1 / 2 < f -> at_rest ts f x ->
  0 < p0 -> p0 <= p <= 7 / 5 -> 0 <= j <= a_max ->
  exists q i, state ts q i (ahrs_imu s x) /\ 0 <= i <= a_max /\ q <= p - 2 * atan (ts * a_Kp * sin p0 / 4) /\ - (15 / 100) < q.
Proof.
  intros St T F A P0 Pp J. assert (P := PI2_3_2). destruct beta_vals as [KP KI]. pose proof a_max_val as AM.
  assert (P309 : 309 / 100 < PI) by (pose proof PI_lower; lra).
  assert (S1 : sin p0 <= sin p). { destruct Pp as [[Pp1|Pp1] Pp2]; [left; apply sin_increasing_1; lra|rewrite Pp1; lra]. }
  assert (S0 : 0 < sin p0) by (apply sin_gt_0; lra). assert (SB := SIN_bound p).
  set (j1 := j + a_Ki * ts * (1 * sin p)). set (a := ts * (a_Kp * (1 * sin p) + j1)).
  assert (T1 : 0 <= ts * sin p <= 1) by nra.
  assert (T0 : ts * sin p0 <= ts * sin p) by (apply Rmult_le_compat_l; lra).
  assert (J1 : 0 <= j1 <= 21 / 1000). { unfold j1. rewrite KI. replace (4605316 / 10000000000 * ts * (1 * sin p)) with (4605316 / 10000000000 * (ts * sin p)) by ring. lra. }
  assert (T2 : 0 <= ts * j1 <= 21 / 1000) by nra.
  assert (A0 : ts * a_Kp * sin p0 <= a <= 7 / 100).
  { unfold a. rewrite KP. replace (ts * (4292 / 100000 * (1 * sin p) + j1)) with (4292 / 100000 * (ts * sin p) + ts * j1) by ring.
    replace (ts * (4292 / 100000) * sin p0) with (4292 / 100000 * (ts * sin p0)) by ring. lra. }
  assert (A1 : 0 <= ts * a_Kp * sin p0) by (rewrite KP; nra).
  assert (Ab : Rabs (- a) <= 1 / 10) by (rewrite Rabs_Ropp, Rabs_pos_eq; lra).
  exists (p + turn_of (- a)), (clamp j1). split.
  { apply (step s ts p j f 1 x); auto; try (rewrite Rabs_pos_eq by lra); lra. }
  rewrite turn_odd.
  split; [destruct (clamp_pos j1); lra|]. split.
  - assert (2 * atan (ts * a_Kp * sin p0 / 4) <= turn_of a) by (apply turn_lower; lra). lra.
  - assert (turn_of a <= 205 / 100 * a) by (apply turn_upper; lra). lra.
Qed.

Lemma nat_above x : exists n, x < INR n.
Proof.
  exists (Z.to_nat (Rdefinitions.up x)). destruct (archimed x) as [A _]. destruct (Z_le_gt_dec 0 (Rdefinitions.up x)) as [P|N].
  - rewrite INR_IZR_INZ, Z2Nat.id by exact P. lra.
  - assert (IZR (Rdefinitions.up x) <= -1) by (apply IZR_le; lia). pose proof (pos_INR (Z.to_nat (Rdefinitions.up x))). lra.
Qed.
Lemma gain_pos ts p0 : 0 < ts -> 0 < p0 <= 7 / 5 -> 0 < 2 * atan (ts * a_Kp * sin p0 / 4).
Proof.
  intros T P0. destruct beta_vals as [KP _]. assert (P := PI_gt_3).
  assert (0 < sin p0) by (apply sin_gt_0; lra).
  rewrite <- (Rmult_0_r 2). apply Rmult_lt_compat_l; [lra|]. rewrite <- atan_0. apply atan_increasing. rewrite KP. nra.
Qed.

(** ** any number of samples *)
Lemma grow ts f p0 b xs : 0 < ts <= 1 -> f < - (1 / 2) -> (forall k, at_rest ts f (xs k)) -> 0 < p0 -> p0 <= b <= 7 / 5 ->
  let k := 2 * atan (ts * a_Kp * sin p0 / 4) in forall n,
  (exists p j, state ts p j (levelled ts p0 xs n) /\ - a_max <= j <= 0 /\ p0 + INR n * k <= p <= b /\
    forall m, (m < n)%nat -> exists p1 p2, pitch_of (levelled ts p0 xs m) = Fin p1 /\ pitch_of (levelled ts p0 xs (S m)) = Fin p2 /\ p1 < p2) \/
  (exists q p, (q <= n)%nat /\ pitch_of (levelled ts p0 xs q) = Fin p /\ b < p < PI / 2 /\
    forall m, (m < q)%nat -> exists p1 p2, pitch_of (levelled ts p0 xs m) = Fin p1 /\ pitch_of (levelled ts p0 xs (S m)) = Fin p2 /\ p1 < p2).
Proof.
  intros T F X P0 B k. assert (K : 0 < k) by (apply gain_pos; lra). assert (PB := PI_lower). induction n as [|n [IH|IH]].
  - left. exists p0, 0. split; [apply start|]. split; [pose proof a_max_pos; lra|]. simpl. split; [lra|]. intros; lia.
  - destruct IH as (p & j & St & J & Pp & Mo). assert (0 <= INR n * k) by (apply Rmult_le_pos; [apply pos_INR|lra]).
    destruct (step_down _ _ _ _ f (xs n) p0 St T F (X n) P0) as (q & i & St2 & I & Q1 & Q2); [lra|exact J|]. fold k in Q1.
    rewrite <- levelled_S in St2.
    assert (G1 : pitch_of (levelled ts p0 xs n) = Fin p) by (rewrite St; unfold pitch_of, ahrs_atti; cbn [a_Cnb]; apply pq_pitch; lra).
    assert (G2 : pitch_of (levelled ts p0 xs (S n)) = Fin q) by (rewrite St2; unfold pitch_of, ahrs_atti; cbn [a_Cnb]; apply pq_pitch; lra).
    assert (Mo2 : forall m, (m < S n)%nat -> exists p1 p2, pitch_of (levelled ts p0 xs m) = Fin p1 /\ pitch_of (levelled ts p0 xs (S m)) = Fin p2 /\ p1 < p2).
    { intros m Hm. destruct (Nat.eq_dec m n) as [->|Nm]; [exists p, q; repeat split; auto; lra|apply Mo; lia]. }
    destruct (Rle_lt_dec q b) as [L|L].
    + left. exists q, i. split; [exact St2|]. split; [exact I|]. split; [rewrite S_INR; lra|exact Mo2].
    + right. exists (S n), q. split; [lia|]. split; [exact G2|]. split; [lra|exact Mo2].
  - right. destruct IH as (q & p & Q & R1). exists q, p. split; [lia|exact R1].
Qed.

Lemma tips_over ts f p0 b xs : 0 < ts <= 1 -> f < - (1 / 2) -> (forall k, at_rest ts f (xs k)) -> 0 < p0 -> p0 <= b <= 7 / 5 ->
  exists n p, pitch_of (levelled ts p0 xs n) = Fin p /\ b < p < PI / 2 /\
    forall m, (m < n)%nat -> exists p1 p2, pitch_of (levelled ts p0 xs m) = Fin p1 /\ pitch_of (levelled ts p0 xs (S m)) = Fin p2 /\ p1 < p2.
Proof.
  intros T F X P0 B. assert (K : 0 < 2 * atan (ts * a_Kp * sin p0 / 4)) by (apply gain_pos; lra).
  set (k := 2 * atan (ts * a_Kp * sin p0 / 4)) in *.
  destruct (nat_above (2 / k)) as [n Hn]. assert (Hn2 : 2 < INR n * k).
  { apply (Rmult_lt_compat_r k) in Hn; [|exact K]. unfold Rdiv in Hn. rewrite Rmult_assoc, Rinv_l in Hn by lra. lra. }
  destruct (grow ts f p0 b xs T F X P0 B n) as [(p & j & _ & _ & Pp & _)|(q & p & _ & R1)]; [fold k in Pp; lra|].
  exists q, p. exact R1.
Qed.

Lemma shrink ts f p0 b xs : 0 < ts <= 1 -> 1 / 2 < f -> (forall k, at_rest ts f (xs k)) -> 0 < b -> b <= p0 <= 7 / 5 ->
  let k := 2 * atan (ts * a_Kp * sin b / 4) in forall n,
  (exists p j, state ts p j (levelled ts p0 xs n) /\ 0 <= j <= a_max /\ b <= p <= p0 - INR n * k /\
    forall m, (m < n)%nat -> exists p1 p2, pitch_of (levelled ts p0 xs m) = Fin p1 /\ pitch_of (levelled ts p0 xs (S m)) = Fin p2 /\ p2 < p1) \/
  (exists q p, (q <= n)%nat /\ pitch_of (levelled ts p0 xs q) = Fin p /\ - (15 / 100) < p < b /\
    forall m, (m < q)%nat -> exists p1 p2, pitch_of (levelled ts p0 xs m) = Fin p1 /\ pitch_of (levelled ts p0 xs (S m)) = Fin p2 /\ p2 < p1).
Proof.
  intros T F X P0 B k. assert (K : 0 < k) by (apply gain_pos; lra). assert (PB := PI_lower). induction n as [|n [IH|IH]].
  - left. exists p0, 0. split; [apply start|]. split; [pose proof a_max_pos; lra|]. simpl. split; [lra|]. intros; lia.
  - destruct IH as (p & j & St & J & Pp & Mo). assert (0 <= INR n * k) by (apply Rmult_le_pos; [apply pos_INR|lra]).
    destruct (step_up _ _ _ _ f (xs n) b St T F (X n) P0) as (q & i & St2 & I & Q1 & Q2); [lra|exact J|]. fold k in Q1.
    rewrite <- levelled_S in St2.
    assert (G1 : pitch_of (levelled ts p0 xs n) = Fin p) by (rewrite St; unfold pitch_of, ahrs_atti; cbn [a_Cnb]; apply pq_pitch; lra).
    assert (G2 : pitch_of (levelled ts p0 xs (S n)) = Fin q) by (rewrite St2; unfold pitch_of, ahrs_atti; cbn [a_Cnb]; apply pq_pitch; lra).
    assert (Mo2 : forall m, (m < S n)%nat -> exists p1 p2, pitch_of (levelled ts p0 xs m) = Fin p1 /\ pitch_of (levelled ts p0 xs (S m)) = Fin p2 /\ p2 < p1).
    { intros m Hm. destruct (Nat.eq_dec m n) as [->|Nm]; [exists p, q; repeat split; auto; lra|apply Mo; lia]. }
    destruct (Rle_lt_dec b q) as [L|L].
    + left. exists q, i. split; [exact St2|]. split; [exact I|]. split; [rewrite S_INR; lra|exact Mo2].
    + right. exists (S n), q. split; [lia|]. split; [exact G2|]. split; [lra|exact Mo2].
  - right. destruct IH as (q & p & Q & R1). exists q, p. split; [lia|exact R1].
Qed.

Lemma levels_up ts f p0 b xs : 0 < ts <= 1 -> 1 / 2 < f -> (forall k, at_rest ts f (xs k)) -> 0 < b -> b <= p0 <= 7 / 5 ->
  exists n p, pitch_of (levelled ts p0 xs n) = Fin p /\ - (15 / 100) < p < b /\
    forall m, (m < n)%nat -> exists p1 p2, pitch_of (levelled ts p0 xs m) = Fin p1 /\ pitch_of (levelled ts p0 xs (S m)) = Fin p2 /\ p2 < p1.
Proof.
  intros T F X P0 B. assert (K : 0 < 2 * atan (ts * a_Kp * sin b / 4)) by (apply gain_pos; lra).
  set (k := 2 * atan (ts * a_Kp * sin b / 4)) in *.
  destruct (nat_above (2 / k)) as [n Hn]. assert (Hn2 : 2 < INR n * k).
  { apply (Rmult_lt_compat_r k) in Hn; [|exact K]. unfold Rdiv in Hn. rewrite Rmult_assoc, Rinv_l in Hn by lra. lra. }
  destruct (shrink ts f p0 b xs T F X P0 B n) as [(p & j & _ & _ & Pp & _)|(q & p & _ & R1)]; [fold k in Pp; lra|].
  exists q, p. exact R1.
Qed.
