(** Facts about the mechanisation (InsModel). *)
From Coq Require Import Reals List Lra Psatz.
From Verif Require Import RealMath EarthModel ConvertModel ConvertSpec ConvertProofs EarthProofs MathWrap SmoothModel InsModel.
Import ListNotations.
Open Scope R_scope.

(** ** Euler angles of a rotation matrix *)
Lemma atan2_unit s c : s * s + c * c = 1 -> sin (atan2 s c) = s /\ cos (atan2 s c) = c.
Proof.
  intros H. unfold atan2.
  assert (AS : forall c s, 0 < c -> s * s + c * c = 1 -> sin (atan (s / c)) = s /\ cos (atan (s / c)) = c).
  { intros c' s' Hc Hu. rewrite sin_atan, cos_atan.
    assert (X : sqrt (1 + (s' / c')²) = 1 / c').
    { unfold Rsqr. replace (1 + s' / c' * (s' / c')) with ((1 / c') * (1 / c')).
      - apply sqrt_square. apply Rlt_le, Rdiv_lt_0_compat; lra.
      - transitivity ((s' * s' + c' * c') / (c' * c')); [rewrite Hu; field; lra|field; lra]. }
    rewrite X. split; field; lra. }
  destruct (Rlt_dec 0 c) as [a|a]; [apply AS; assumption|].
  destruct (Rlt_dec c 0) as [b|b].
  - destruct (AS (- c) (- s)) as [A B]; [lra|lra|].
    replace (- s / - c) with (s / c) in A, B by (field; lra).
    destruct (Rle_dec 0 s).
    * rewrite neg_sin, neg_cos, A, B. split; ring.
    * unfold Rminus. rewrite sin_plus, cos_plus, sin_neg, cos_neg, sin_PI, cos_PI, A, B. split; ring.
  - assert (Hc0 : c = 0) by lra. subst c.
    destruct (Rlt_dec 0 s); [|destruct (Rlt_dec s 0)].
    * rewrite sin_PI2, cos_PI2. split; nra.
    * rewrite sin_neg, cos_neg, sin_PI2, cos_PI2. split; nra.
    * exfalso. nra.
Qed.

Definition madj (a : mat) : mat :=
  M (m11 a * m22 a - m12 a * m21 a) (m02 a * m21 a - m01 a * m22 a) (m01 a * m12 a - m02 a * m11 a)
    (m12 a * m20 a - m10 a * m22 a) (m00 a * m22 a - m02 a * m20 a) (m02 a * m10 a - m00 a * m12 a)
    (m10 a * m21 a - m11 a * m20 a) (m01 a * m20 a - m00 a * m21 a) (m00 a * m11 a - m01 a * m10 a).
Lemma madj_mul a : mmul (madj a) a = mscale (mdet a) eye.
Proof. destruct a; unfold mdet; mring. Qed.
Lemma madj_rotation a : rotation a -> madj a = mtrans a.
Proof.
  intros (_ & H & D). assert (A := madj_mul a). rewrite D in A.
  assert (E : mscale 1 eye = eye) by (mring). rewrite E in A.
  transitivity (mmul (madj a) (mmul a (mtrans a))).
  - rewrite H. destruct a; mring.
  - rewrite mmul_assoc, A. destruct a; mring.
Qed.

(** away from the vertical the Euler angles of a rotation matrix describe that matrix *)
Lemma dcm_euler_sound c : rotation c -> - (999 / 1000) < m20 c < 999 / 1000 ->
  exists roll pitch heading, dcm_to_euler c = Eu (Fin roll) (Fin pitch) heading /\
    - (PI / 2) < pitch < PI / 2 /\ attitude roll pitch heading = c.
Proof.
  intros Hr Hm. assert (A := madj_rotation c Hr). destruct Hr as (T1 & T2 & _).
  assert (E1 := f_equal m22 T2). assert (E2 := f_equal m00 T1). simpl in E1, E2.
  assert (C01 := f_equal m10 A). assert (C11 := f_equal m11 A). assert (C02 := f_equal m20 A). assert (C12 := f_equal m21 A).
  simpl in C01, C11, C02, C12. clear A T1 T2.
  set (k := sqrt (m21 c * m21 c + m22 c * m22 c)).
  assert (P : 0 < m21 c * m21 c + m22 c * m22 c) by nra.
  assert (K : 0 < k) by (apply sqrt_lt_R0; exact P).
  assert (K2 : k * k = m21 c * m21 c + m22 c * m22 c) by (apply sqrt_sqrt; lra).
  unfold dcm_to_euler. fold k.
  destruct (Rle_dec (m20 c) (- (999 / 1000))); [lra|]. destruct (Rle_dec (999 / 1000) (m20 c)); [lra|].
  unfold xdiv. destruct (Req_EM_T k 0); [lra|]. simpl xatan.
  exists (atan2 (m21 c) (m22 c)), (atan (- m20 c / k)), (atan2 (m10 c) (m00 c)).
  split; [reflexivity|].
  split. { assert (B := atan_bound (- m20 c / k)). lra. }
  assert (Sr : sin (atan2 (m21 c) (m22 c)) = m21 c / k /\ cos (atan2 (m21 c) (m22 c)) = m22 c / k).
  { replace (atan2 (m21 c) (m22 c)) with (atan2 (m21 c / k) (m22 c / k)).
    - apply atan2_unit. transitivity ((m21 c * m21 c + m22 c * m22 c) / (k * k)); [field; lra|rewrite K2; field; lra].
    - rewrite <- (atan2_scale k (m21 c / k)) by assumption. f_equal; field; lra. }
  assert (Sh : sin (atan2 (m10 c) (m00 c)) = m10 c / k /\ cos (atan2 (m10 c) (m00 c)) = m00 c / k).
  { replace (atan2 (m10 c) (m00 c)) with (atan2 (m10 c / k) (m00 c / k)).
    - apply atan2_unit. transitivity ((m10 c * m10 c + m00 c * m00 c) / (k * k)); [field; lra|].
      replace (m10 c * m10 c + m00 c * m00 c) with (k * k) by lra. field; lra.
    - rewrite <- (atan2_scale k (m10 c / k)) by assumption. f_equal; field; lra. }
  assert (Sp : sin (atan (- m20 c / k)) = - m20 c /\ cos (atan (- m20 c / k)) = k).
  { assert (U := atan2_unit (- m20 c) k). unfold atan2 in U. destruct (Rlt_dec 0 k); [|lra]. apply U. lra. }
  destruct Sr as [Sr Cr], Sh as [Sh Ch], Sp as [Sp Cp].
  rewrite <- euler_dcm_attitude. unfold euler_to_dcm; cbn [vx vy vz]. rewrite Sr, Cr, Sh, Ch, Sp, Cp.
  assert (K3 : k * k = 1 - m20 c * m20 c) by lra.
  assert (Div : forall x y, x = y * (k * k) -> x / (k * k) = y) by (intros x y ->; field; lra).
  apply mat_ext; simpl.
  - field; lra.
  - transitivity ((- m22 c * m10 c - m21 c * m20 c * m00 c) / (k * k)); [field; lra|]. apply Div. rewrite K3.
    rewrite <- C01 at 1. rewrite <- C12.
    assert (X := C01). assert (Y := C12). nra.
  - transitivity ((m21 c * m10 c - m22 c * m20 c * m00 c) / (k * k)); [field; lra|]. apply Div. rewrite K3. nra.
  - field; lra.
  - transitivity ((m22 c * m00 c - m21 c * m20 c * m10 c) / (k * k)); [field; lra|]. apply Div. rewrite K3. nra.
  - transitivity ((- m21 c * m00 c - m22 c * m20 c * m10 c) / (k * k)); [field; lra|]. apply Div. rewrite K3. nra.
  - ring.
  - field; lra.
  - field; lra.
Qed.

(** ** C36 *)
Definition sound_attitude (n : navepoch) : Prop := qnorm2 (n_Qbn n) = 1 /\ n_Cbn n = quaternion_to_dcm (n_Qbn n).

Lemma bind_some {A B} (o : option A) (f : A -> option B) b : bind o f = Some b -> exists a, o = Some a /\ f a = Some b.
Proof. destruct o; simpl; intros; [eauto|discriminate]. Qed.

Lemma qnorm2_pos_mul a b : 0 < qnorm2 a -> 0 < qnorm2 b -> 0 < qnorm2 (qmul a b).
Proof. intros. rewrite qnorm2_mul. apply Rmult_lt_0_compat; assumption. Qed.

Lemma extrapolate_nav s t : extrapolate s = Some t -> s_nav t = s_nav s /\ s_dt t = s_dt s.
Proof.
  unfold extrapolate. intros H. apply bind_some in H as (w & _ & H). apply bind_some in H as (l & _ & H).
  apply bind_some in H as (v & _ & H). injection H as <-. split; reflexivity.
Qed.
Lemma velocity_nav s a g t : velocity_update s a g = Some t ->
  exists vn dvn vf, s_nav t = nav_vel (s_nav s) vn dvn vf.
Proof.
  unfold velocity_update. destruct (Req_EM_T (s_dt s) 0); [discriminate|]. intros H.
  apply bind_some in H as (w & _ & H). injection H as <-. simpl. eauto.
Qed.
Lemma position_nav s t : position_update s = Some t ->
  exists pos Q, s_nav t = nav_place (s_nav s) pos Q (lla_to_cne (vx pos) (vy pos)).
Proof.
  unfold position_update. intros H. apply bind_some in H as (l & _ & H). apply bind_some in H as (w & _ & H).
  injection H as <-. simpl. exists (V (fst l) (snd l) (vz (n_pos (s_nav s)) - vz (s_vn_mid s) * s_dt s)). eexists. reflexivity.
Qed.

Lemma forward_attitude s x t : forward s x = Some t -> sound_attitude (s_nav s) ->
  sound_attitude (s_nav t) /\ n_atti (s_nav t) = dcm_to_euler (n_Cbn (s_nav t)) /\
  n_Cne (s_nav t) = lla_to_cne (vx (n_pos (s_nav t))) (vy (n_pos (s_nav t))).
Proof.
  unfold forward, mechanise. intros H [Hu Hc]. apply bind_some in H as (m & H & E). injection E as <-.
  apply bind_some in H as (s1 & H1 & H). apply bind_some in H as (s2 & H2 & H). apply bind_some in H as (s3 & H3 & H).
  injection H as <-. apply extrapolate_nav in H1 as [N1 _].
  apply velocity_nav in H2 as (vn & dvn & vf & N2). apply position_nav in H3 as (pos & q & N3).
  unfold atti_update, sound_attitude. cbv zeta. cbn [s_nav nav_time nav_turn n_Qbn n_Cbn n_atti n_Cne n_pos].
  split; [split; [|reflexivity]|split; [reflexivity|]].
  - apply qnormalized_unit. apply qnorm2_pos_mul; [apply qnorm2_pos_mul|apply rv_norm_pos].
    + rewrite qnorm2_conj. apply rv_norm_pos.
    + rewrite N3, N2, N1. cbn [nav_place nav_vel n_Qbn]. lra.
  - rewrite N3. reflexivity.
Qed.

Lemma feedback_attitude s x t : feedback s x = Some t -> sound_attitude (s_nav s) ->
  sound_attitude (s_nav t) /\ n_atti (s_nav t) = dcm_to_euler (n_Cbn (s_nav t)).
Proof.
  unfold feedback. cbv zeta. destruct (rates_defined _); [|discriminate]. intros H [Hu Hc].
  apply bind_some in H as (l & _ & H). injection H as <-.
  unfold sound_attitude. cbn [s_nav nav_bias nav_turn n_Qbn n_Cbn n_atti].
  split; [split; [|reflexivity]|reflexivity].
  apply qnormalized_unit. apply qnorm2_pos_mul; [apply rv_norm_pos|lra].
Qed.

Lemma run_attitude ops : forall s t, ins_run s ops = Some t -> sound_attitude (s_nav s) ->
  sound_attitude (s_nav t) /\ (ops <> [] -> n_atti (s_nav t) = dcm_to_euler (n_Cbn (s_nav t))).
Proof.
  induction ops as [|o r IH]; simpl; intros s t H S.
  - injection H as <-. split; [exact S|congruence].
  - apply bind_some in H as (u & H1 & H2).
    assert (X : sound_attitude (s_nav u) /\ n_atti (s_nav u) = dcm_to_euler (n_Cbn (s_nav u))).
    { destruct o; simpl in H1; [apply forward_attitude in H1|apply feedback_attitude in H1]; tauto. }
    destruct X as [X Y]. destruct (IH u t H2 X) as [Z W]. split; [exact Z|]. intros _.
    destruct r; [injection H2 as <-; exact Y|apply W; discriminate].
Qed.

Lemma make_nav_sound gpst pos vn atti : sound_attitude (make_nav gpst pos vn atti).
Proof. split; simpl; [apply euler_quaternion_unit|rewrite euler_dcm_quaternion; reflexivity]. Qed.

Lemma attitude_history s0 gpst pos vn atti rate ops s :
  ins_run (init_pva s0 (make_nav gpst pos vn atti) rate) ops = Some s ->
  qnorm2 (n_Qbn (s_nav s)) = 1 /\ n_Cbn (s_nav s) = quaternion_to_dcm (n_Qbn (s_nav s)) /\ rotation (n_Cbn (s_nav s)).
Proof.
  intros H. apply run_attitude in H; [|apply make_nav_sound]. destruct H as [[A B] _].
  rewrite B at 2. auto using dcm_rotation.
Qed.
Lemma euler_history s0 gpst pos vn atti rate ops s :
  ins_run (init_pva s0 (make_nav gpst pos vn atti) rate) ops = Some s -> ops <> [] ->
  let C := n_Cbn (s_nav s) in
  n_atti (s_nav s) = dcm_to_euler C /\
  (- (999 / 1000) < m20 C < 999 / 1000 ->
   exists roll pitch heading, n_atti (s_nav s) = Eu (Fin roll) (Fin pitch) heading /\
     - (PI / 2) < pitch < PI / 2 /\ attitude roll pitch heading = C).
Proof.
  intros H N C. assert (X := H). apply attitude_history in X. apply run_attitude in H; [|apply make_nav_sound].
  destruct H as [_ E]. specialize (E N). fold C in E. split; [exact E|]. intros K. rewrite E.
  apply dcm_euler_sound; tauto.
Qed.
(** the position matrix follows the position at every sample *)
Lemma run_app ops1 ops2 s : ins_run s (ops1 ++ ops2) = bind (ins_run s ops1) (fun t => ins_run t ops2).
Proof. revert s; induction ops1 as [|o r IH]; simpl; intros; [reflexivity|]. destruct (ins_do s o); simpl; auto. Qed.
Lemma position_matrix_history s0 gpst pos vn atti rate ops x s :
  ins_run (init_pva s0 (make_nav gpst pos vn atti) rate) (ops ++ [OpSample x]) = Some s ->
  n_Cne (s_nav s) = lla_to_cne (vx (n_pos (s_nav s))) (vy (n_pos (s_nav s))).
Proof.
  rewrite run_app. intros H. apply bind_some in H as (t & H1 & H2). simpl in H2.
  apply bind_some in H2 as (u & H2 & E). injection E as ->.
  apply run_attitude in H1; [|apply make_nav_sound]. apply forward_attitude in H2; tauto.
Qed.

(** ** C47 *)
Lemma rv_form v : exists w k, (forall u, dot u u = dot v v -> rv_to_quaternion u = Q w (k * vx u) (k * vy u) (k * vz u)).
Proof.
  unfold rv_to_quaternion. fold (dot v v).
  destruct (Rlt_dec (dot v v) (PI * PI)) as [L|L].
  - set (m := dot v v * (1 / 4)). exists (1 - m / 2 * (1 - m / 12 * (1 - m / 30))), (1 / 2 * (1 - m / 6 * (1 - m / 20 * (1 - m / 42)))).
    intros u E. fold (dot u u). rewrite E. destruct (Rlt_dec (dot v v) (PI * PI)); [|lra]. reflexivity.
  - set (g := sqrt (dot v v)). destruct (Rlt_dec (cos (g / 2)) 0) as [N|N].
    + exists (- cos (g / 2)), (- sin (g / 2) / g). intros u E. fold (dot u u). rewrite E.
      destruct (Rlt_dec (dot v v) (PI * PI)); [lra|]. fold g. destruct (Rlt_dec (cos (g / 2)) 0); [|lra].
      apply quat_ext; simpl; unfold Rdiv; ring.
    + exists (cos (g / 2)), (sin (g / 2) / g). intros u E. fold (dot u u). rewrite E.
      destruct (Rlt_dec (dot v v) (PI * PI)); [lra|]. fold g. destruct (Rlt_dec (cos (g / 2)) 0); [lra|].
      apply quat_ext; simpl; unfold Rdiv; ring.
Qed.

Lemma rotation_dot c v : rotation c -> dot (mvec (mtrans c) v) (mvec (mtrans c) v) = dot v v.
Proof.
  intros (_ & H & _).
  assert (E0 := f_equal m00 H). assert (E1 := f_equal m01 H). assert (E2 := f_equal m02 H).
  assert (E4 := f_equal m11 H). assert (E5 := f_equal m12 H). assert (E8 := f_equal m22 H). clear H.
  destruct c as [c0 c1 c2 c3 c4 c5 c6 c7 c8], v as [x y z]. simpl in *.
  unfold dot; simpl.
  transitivity ((c0 * c0 + c1 * c1 + c2 * c2) * (x * x) + (c3 * c3 + c4 * c4 + c5 * c5) * (y * y)
    + (c6 * c6 + c7 * c7 + c8 * c8) * (z * z) + 2 * (c0 * c3 + c1 * c4 + c2 * c5) * (x * y)
    + 2 * (c0 * c6 + c1 * c7 + c2 * c8) * (x * z) + 2 * (c3 * c6 + c4 * c7 + c5 * c8) * (y * z)); [ring|].
  rewrite E0, E1, E2, E4, E5, E8. ring.
Qed.

Lemma conj_rotate q w k v : qnorm2 q = 1 ->
  let u := mvec (mtrans (quaternion_to_dcm q)) v in
  qmul (qmul (qconj q) (Q w (k * vx v) (k * vy v) (k * vz v))) q = Q w (k * vx u) (k * vy u) (k * vz u).
Proof.
  intros H u. subst u. rewrite <- dcm_conj, dcm_rotate by (rewrite qnorm2_conj; exact H).
  destruct q as [a b c d], v as [x y z]. unfold qrotate, qnorm2 in *. simpl in *.
  apply quat_ext; simpl; try ring.
  transitivity (w * (a * a + b * b + c * c + d * d)); [ring|rewrite H; ring].
Qed.

Lemma rv_conj q v : qnorm2 q = 1 ->
  rv_to_quaternion (mvec (mtrans (quaternion_to_dcm q)) v) = qmul (qmul (qconj q) (rv_to_quaternion v)) q.
Proof.
  intros H. destruct (rv_form v) as (w & k & F).
  rewrite (F v eq_refl), (F (mvec (mtrans (quaternion_to_dcm q)) v)).
  - symmetry. apply (conj_rotate q w k v H).
  - apply rotation_dot, dcm_rotation, H.
Qed.

Lemma qnormalized_scale k q : 0 < k -> qnorm2 q = 1 -> qnormalized (qmul (Q k 0 0 0) q) = q.
Proof.
  intros K H. unfold qnormalized.
  assert (N : qnorm2 (qmul (Q k 0 0 0) q) = k * k) by (rewrite qnorm2_mul, H; unfold qnorm2; simpl; ring).
  rewrite N. destruct (Rlt_dec 0 (k * k)); [|nra]. rewrite sqrt_square by lra.
  destruct q. qring; lra.
Qed.

(** turning a frame by a rotation seen from both sides changes nothing *)
Lemma turn_cancels q v : qnorm2 q = 1 ->
  qnormalized (qmul (qmul (qconj (rv_to_quaternion v)) q) (rv_to_quaternion (mvec (mtrans (quaternion_to_dcm q)) v))) = q.
Proof.
  intros H. rewrite rv_conj by exact H. set (r := rv_to_quaternion v).
  replace (qmul (qmul (qconj r) q) (qmul (qmul (qconj q) r) q)) with (qmul (qmul (qconj r) (qmul (qmul q (qconj q)) r)) q).
  2:{ rewrite !qmul_assoc. reflexivity. }
  rewrite qmul_conj_r, H. fold qone. rewrite qmul_one_l, qmul_conj_l.
  apply qnormalized_scale; [apply rv_norm_pos|exact H].
Qed.
