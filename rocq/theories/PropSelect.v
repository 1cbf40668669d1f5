(** Properties C97-C101: the optional states of the filter. *)
From Coq Require Import Reals List Bool Arith Lia Lra Psatz.
From Verif Require Import RealMath EarthModel EarthProofs ConvertModel ConvertSpec ConvertProofs SmoothModel InsModel InsProofs FusionBase LayoutModel LayoutProofs SelectModel.
Import ListNotations.
Open Scope R_scope.

(** only entries on the diagonal *)
Lemma diag_sum f i n : (i < n)%nat -> (forall k, k <> i -> f k = 0) -> fold_right Rplus 0 (map f (seq 0 n)) = f i.
Proof.
  intros H Z. assert (G : forall s n, (s <= i < s + n)%nat -> fold_right Rplus 0 (map f (seq s n)) = f i).
  2: apply G; lia.
  assert (N : forall s n, (i < s)%nat -> fold_right Rplus 0 (map f (seq s n)) = 0).
  { intros s m; revert s. induction m as [|m IH]; intros s Hs; [reflexivity|]. simpl. rewrite IH by lia. rewrite Z by lia. ring. }
  intros s m; revert s. induction m as [|m IH]; intros s Hs; [lia|]. simpl.
  destruct (Nat.eq_dec s i) as [->|D]; [rewrite N by lia; ring|]. rewrite IH by lia. rewrite Z by lia. ring.
Qed.
Lemma assign_in m r c h w b i j : (r <= i < r + h)%nat -> (c <= j < c + w)%nat -> assign m r c h w b i j = b (i - r)%nat (j - c)%nat.
Proof.
  intros H K. unfold assign.
  replace (Nat.leb r i) with true by (symmetry; apply Nat.leb_le; lia). replace (Nat.ltb i (r + h)) with true by (symmetry; apply Nat.ltb_lt; lia).
  replace (Nat.leb c j) with true by (symmetry; apply Nat.leb_le; lia). replace (Nat.ltb j (c + w)) with true by (symmetry; apply Nat.ltb_lt; lia).
  reflexivity.
Qed.
Lemma assign_out m r c h w b i j : ~ ((r <= i < r + h)%nat /\ (c <= j < c + w)%nat) -> assign m r c h w b i j = m i j.
Proof.
  intros H. unfold assign.
  destruct (Nat.leb r i) eqn:E1; [|reflexivity]. destruct (Nat.ltb i (r + h)) eqn:E2; [|reflexivity].
  destruct (Nat.leb c j) eqn:E3; [|reflexivity]. destruct (Nat.ltb j (c + w)) eqn:E4; [|reflexivity].
  apply Nat.leb_le in E1, E3. apply Nat.ltb_lt in E2, E4. exfalso. lia.
Qed.
Lemma loop_off m s n f i j : i <> j -> diagonal_loop m s n f i j = m i j.
Proof. intros H. induction n as [|n IH]; [reflexivity|]. simpl. rewrite assign_out by lia. exact IH. Qed.
Lemma loop_out m s n f i j : ~ (s <= i < s + n)%nat -> diagonal_loop m s n f i j = m i j.
Proof. intros H. induction n as [|n IH]; [reflexivity|]. simpl. rewrite assign_out by lia. apply IH. lia. Qed.
Lemma loop_in m s n f k : (k < n)%nat -> diagonal_loop m s n f (s + k)%nat (s + k)%nat = f k.
Proof.
  intros H. induction n as [|n IH]; [lia|]. simpl.
  destruct (Nat.eq_dec k n) as [->|D]; [rewrite assign_in by lia; reflexivity|]. rewrite assign_out by lia. apply IH. lia.
Qed.
Lemma mdiag_off v i j : i <> j -> entry (mdiag v) i j = 0.
Proof. destruct i as [|[|[|i]]], j as [|[|[|j]]]; simpl; intros; try reflexivity; lia. Qed.
Lemma mdiag_on v i : (i < 3)%nat -> entry (mdiag v) i i = coord v i.
Proof. destruct i as [|[|[|i]]]; simpl; intros; try reflexivity; lia. Qed.

Lemma base_off nav o i j : i <> j -> base_std nav o i j = 0.
Proof.
  intros H. unfold base_std. cbn [seq fold_left].
  repeat match goal with |- assign ?m ?r ?c ?h ?w ?b i j = _ =>
    destruct (le_lt_dec r i); [destruct (le_lt_dec (r + h) i); [rewrite assign_out by lia|destruct (le_lt_dec c j);
      [destruct (le_lt_dec (c + w) j); [rewrite assign_out by lia|rewrite assign_in by lia; apply mdiag_off; lia]|rewrite assign_out by lia]]|rewrite assign_out by lia] end;
  reflexivity.
Qed.
Lemma std_off sel nav o x i j : i <> j -> init_std sel nav o x i j = 0.
Proof.
  intros H. unfold init_std. cbv zeta.
  destruct (odo_sf sel), (level_arm sel), (acce_sf sel), (gyro_sf sel); rewrite ?loop_off by exact H; apply base_off; exact H.
Qed.
Lemma cov_diag sel nav o x i : (i < STATE_CNT sel)%nat -> init_cov sel nav o x i i = init_std sel nav o x i i * init_std sel nav o x i i.
Proof.
  intros H. unfold init_cov, product. apply (diag_sum (fun k => init_std sel nav o x i k * init_std sel nav o x k i)); [exact H|].
  intros k D. rewrite std_off by lia. ring.
Qed.
Lemma cov_off sel nav o x i j : i <> j -> init_cov sel nav o x i j = 0.
Proof.
  intros H. unfold init_cov, product. generalize (seq 0 (STATE_CNT sel)). intros l. induction l as [|k l IH]; [reflexivity|].
  simpl. rewrite IH. destruct (Nat.eq_dec i k) as [->|D]; [rewrite (std_off sel nav o x k j) by lia|rewrite (std_off sel nav o x i k) by lia]; ring.
Qed.
Lemma std_base sel nav o x b k : (b < 5)%nat -> (k < 3)%nat -> init_std sel nav o x (3 * b + k)%nat (3 * b + k)%nat = coord (std_diag nav o b) k.
Proof.
  intros Hb Hk.
  assert (B : base_std nav o (3 * b + k)%nat (3 * b + k)%nat = coord (std_diag nav o b) k).
  { unfold base_std. cbn [seq fold_left].
    destruct b as [|[|[|[|[|b]]]]]; [..|exfalso; lia];
    repeat match goal with |- assign ?m ?r ?c ?h ?w ?f _ _ = _ =>
      first [rewrite assign_in by lia; unfold of_mat; rewrite Nat.add_comm, Nat.add_sub; apply mdiag_on; exact Hk|rewrite assign_out by lia] end. }
  assert (L : (3 * b + k < 15)%nat) by lia. set (i := (3 * b + k)%nat) in *. clearbody i.
  unfold init_std. cbv zeta.
  assert (G : (15 <= gyro_start sel)%nat) by (unfold gyro_start, BASE_STATE; lia).
  assert (A : (15 <= acce_start sel)%nat) by (unfold acce_start; destruct (acce_sf sel); lia).
  assert (M : (15 <= arm_start sel)%nat) by (unfold arm_start; destruct (level_arm sel); lia).
  assert (O : (15 <= odo_start sel)%nat) by (unfold odo_start; destruct (odo_sf sel); lia).
  destruct (odo_sf sel), (level_arm sel), (acce_sf sel), (gyro_sf sel); rewrite ?loop_out by lia; exact B.
Qed.

(** * C97  initial accuracy *)
(** place, velocity, attitude and biases start with the squares of the given standard deviations, uncorrelated, whatever optional
    states are switched on *)
Theorem C97_base_partial : forall sel nav o x,
  (forall b k, (b < 5)%nat -> (k < 3)%nat ->
     init_cov sel nav o x (3 * b + k)%nat (3 * b + k)%nat = coord (std_diag nav o b) k * coord (std_diag nav o b) k) /\
  (forall i j, i <> j -> init_cov sel nav o x i j = 0).
Proof.
  intros sel nav o x. split; [|intros; apply cov_off; assumption].
  intros b k Hb Hk. rewrite cov_diag by (unfold STATE_CNT, BASE_STATE; lia). rewrite std_base by assumption. reflexivity.
Qed.
Print Assumptions C97_base_partial.

(** the scale factors start with the fourth power *)
Theorem C97_scale_REFUTED : forall sel nav o x i, consistent sel -> (i < 3)%nat ->
  (gyro_sf sel = true -> init_cov sel nav o x (gyro_start sel + i)%nat (gyro_start sel + i)%nat = coord (x_gs_std x) i ^ 4) /\
  (acce_sf sel = true -> init_cov sel nav o x (acce_start sel + i)%nat (acce_start sel + i)%nat = coord (x_as_std x) i ^ 4).
Proof.
  intros sel nav o x i C Hi. apply layout_iff in C.
  split; intros F.
  - rewrite cov_diag by (unfold STATE_CNT, gyro_start, gyro_size; rewrite F; lia).
    unfold init_std. cbv zeta. rewrite F.
    assert (S3 : (i < gyro_size sel)%nat) by (unfold gyro_size; rewrite F; exact Hi).
    assert (E : forall f, (if odo_sf sel then diagonal_loop f (odo_start sel) (odo_size sel) (fun _ => 1 / 1000000000) else f)
        (gyro_start sel + i)%nat (gyro_start sel + i)%nat = f (gyro_start sel + i)%nat (gyro_start sel + i)%nat).
    { intros f. destruct sel as [[] [] [] []]; try discriminate F; try discriminate C; cbn [odo_sf]; try reflexivity; apply loop_out; ev; lia. }
    rewrite !E.
    assert (E2 : forall f, (if level_arm sel then diagonal_loop f (arm_start sel) (arm_size sel) (fun _ => 1 / 1000) else f)
        (gyro_start sel + i)%nat (gyro_start sel + i)%nat = f (gyro_start sel + i)%nat (gyro_start sel + i)%nat).
    { intros f. destruct sel as [[] [] [] []]; try discriminate F; try discriminate C; cbn [level_arm]; try reflexivity; apply loop_out; ev; lia. }
    rewrite !E2.
    assert (E3 : forall f g, (if acce_sf sel then diagonal_loop f (acce_start sel) (acce_size sel) g else f)
        (gyro_start sel + i)%nat (gyro_start sel + i)%nat = f (gyro_start sel + i)%nat (gyro_start sel + i)%nat).
    { intros f g. destruct sel as [[] [] [] []]; try discriminate F; try discriminate C; cbn [acce_sf]; try reflexivity; apply loop_out; ev; lia. }
    rewrite !E3. rewrite loop_in by exact S3. ring.
  - rewrite cov_diag by (unfold STATE_CNT, acce_start, acce_size, gyro_start; rewrite F; lia).
    unfold init_std. cbv zeta. rewrite F.
    assert (S3 : (i < acce_size sel)%nat) by (unfold acce_size; rewrite F; exact Hi).
    assert (E : forall f, (if odo_sf sel then diagonal_loop f (odo_start sel) (odo_size sel) (fun _ => 1 / 1000000000) else f)
        (acce_start sel + i)%nat (acce_start sel + i)%nat = f (acce_start sel + i)%nat (acce_start sel + i)%nat).
    { intros f. destruct sel as [[] [] [] []]; try discriminate F; try discriminate C; cbn [odo_sf]; try reflexivity; apply loop_out; ev; lia. }
    rewrite !E.
    assert (E2 : forall f, (if level_arm sel then diagonal_loop f (arm_start sel) (arm_size sel) (fun _ => 1 / 1000) else f)
        (acce_start sel + i)%nat (acce_start sel + i)%nat = f (acce_start sel + i)%nat (acce_start sel + i)%nat).
    { intros f. destruct sel as [[] [] [] []]; try discriminate F; try discriminate C; cbn [level_arm]; try reflexivity; apply loop_out; ev; lia. }
    rewrite !E2. rewrite loop_in by exact S3. ring.
Qed.
Print Assumptions C97_scale_REFUTED.
(** the accuracy given for the scale factor of the odometer is not used: it starts at the variance 1e-18 *)
Theorem C97_odometer_REFUTED : forall sel nav o x, odo_sf sel = true ->
  init_cov sel nav o x (odo_start sel) (odo_start sel) = / 10 ^ 18.
Proof.
  intros sel nav o x F. rewrite cov_diag.
  2: { destruct sel as [[] [] [] []]; try discriminate F; ev; lia. }
  unfold init_std. cbv zeta. rewrite F.
  assert (S1 : (0 < odo_size sel)%nat) by (unfold odo_size; rewrite F; lia).
  match goal with |- diagonal_loop ?m ?a ?n ?f _ _ * _ = _ => assert (E := loop_in m a n f 0 S1); rewrite Nat.add_0_r in E; rewrite E end. lra.
Qed.
Print Assumptions C97_odometer_REFUTED.
Example C97_case : consistent {| gyro_sf := true; acce_sf := true; level_arm := true; odo_sf := true |} /\ (1 / 1000) ^ 4 <> (1 / 1000) ^ 2.
Proof. split; [rewrite layout_iff; reflexivity|lra]. Qed.

(** * C98  feeding back the estimate *)
(** with any optional state the feedback reads outside the estimate, without it does not *)
Theorem C98_feedback_REFUTED : forall sel, feedback_defined sel = true <->
  gyro_sf sel = false /\ acce_sf sel = false /\ level_arm sel = false /\ odo_sf sel = false.
Proof. intros [[] [] [] []]; cbv; intuition discriminate. Qed.
Print Assumptions C98_feedback_REFUTED.
(** were the estimate a column, as everywhere else, all of it would be inside *)
Theorem C98_column_partial : forall sel h w r c, consistent sel -> In ((h, w), (r, c)) (feedback_reads sel) -> (r + h <= STATE_CNT sel /\ c + w <= 1)%nat.
Proof.
  intros sel h w r c C H. apply layout_iff in C. destruct sel as [[] [] [] []]; try discriminate C; cbv in H |- *;
    repeat (destruct H as [H|H]; [injection H as <- <- <- <-; lia|]); destruct H.
Qed.
Print Assumptions C98_column_partial.
Example C98_case : feedback_defined {| gyro_sf := false; acce_sf := false; level_arm := false; odo_sf := false |} = true /\
  feedback_defined {| gyro_sf := true; acce_sf := false; level_arm := false; odo_sf := false |} = false.
Proof. split; reflexivity. Qed.

(** * C99  scale factors in the transition matrix *)
(** what an error d of the scale factor of the gyroscopes does: the angle increments change by d times the increment, as by a bias *)
Theorem C99_true_effect_partial : forall s imu bias scale d,
  vsub (compensate s imu bias (vadd scale d)) (compensate s imu bias scale) =
  vscale (-1) (mvec (mdiag d) (vsub imu (vscale (s_dt s) bias))).
Proof. intros s [a b c] [d e f] [g h i] [j k l]. unfold compensate. apply vec_ext; simpl; ring. Qed.
Print Assumptions C99_true_effect_partial.
Lemma base_phi_out i o r c : (15 <= c)%nat -> base_phi i o r c = 0.
Proof. intros H. unfold base_phi. replace (Nat.ltb c 15) with false by (symmetry; apply Nat.ltb_ge; exact H). rewrite andb_false_r. reflexivity. Qed.
(** the transition matrix: no effect on the attitude, but on the estimated biases *)
Theorem C99_gyroscopes_REFUTED : forall sel i o r c, consistent sel -> gyro_sf sel = true -> (r < 3)%nat -> (c < 3)%nat ->
  transition sel i o (6 + r)%nat (gyro_start sel + c)%nat = 0 /\
  transition sel i o (9 + r)%nat (gyro_start sel + c)%nat = - (entry (n_Cbn (s_nav i)) r c * coord (s_gyro_pre i) c).
Proof.
  intros sel i o r c C F Hr Hc. apply layout_iff in C. unfold transition. cbv zeta. rewrite F.
  assert (P : entry (mmul (mscale (-1) (n_Cbn (s_nav i))) (mdiag (s_gyro_pre i))) r c = - (entry (n_Cbn (s_nav i)) r c * coord (s_gyro_pre i) c)).
  { destruct (n_Cbn (s_nav i)), (s_gyro_pre i), r as [|[|[|r]]], c as [|[|[|c]]]; simpl; try lia; ring. }
  destruct sel as [[] [] [] []]; try discriminate F; try discriminate C; cbn [level_arm odo_sf acce_sf]; split;
    rewrite ?loop_off by (ev; lia);
    repeat match goal with
    | |- assign ?m 9 ?c0 ?h ?w ?b (9 + r)%nat ?j = _ => rewrite assign_in by lia; rewrite !minus_plus; exact P
    | |- assign _ _ _ _ _ _ _ _ = _ => rewrite assign_out by (ev; lia) end;
    apply base_phi_out; ev; lia.
Qed.
Print Assumptions C99_gyroscopes_REFUTED.
(** the accelerometers: no effect on the velocity, but on the attitude *)
Theorem C99_accelerometers_REFUTED : forall sel i o r c, consistent sel -> acce_sf sel = true -> (r < 3)%nat -> (c < 3)%nat ->
  transition sel i o (3 + r)%nat (acce_start sel + c)%nat = 0 /\
  transition sel i o (6 + r)%nat (acce_start sel + c)%nat = entry (n_Cbn (s_nav i)) r c * coord (s_acce_pre i) c.
Proof.
  intros sel i o r c C F Hr Hc. apply layout_iff in C. unfold transition. cbv zeta. rewrite F.
  assert (P : entry (mmul (n_Cbn (s_nav i)) (mdiag (s_acce_pre i))) r c = entry (n_Cbn (s_nav i)) r c * coord (s_acce_pre i) c).
  { destruct (n_Cbn (s_nav i)), (s_acce_pre i), r as [|[|[|r]]], c as [|[|[|c]]]; simpl; try lia; ring. }
  destruct sel as [[] [] [] []]; try discriminate F; try discriminate C; cbn [level_arm odo_sf gyro_sf]; split;
    rewrite ?loop_off by (ev; lia);
    repeat match goal with
    | |- assign ?m 6 ?c0 ?h ?w ?b (6 + r)%nat ?j = _ => rewrite assign_in by lia; rewrite !minus_plus; exact P
    | |- assign _ _ _ _ _ _ _ _ = _ => rewrite assign_out by (ev; lia) end;
    apply base_phi_out; ev; lia.
Qed.
Print Assumptions C99_accelerometers_REFUTED.

(** the lever arm and the scale factor of the odometer are states of their own, with a correlation time of ten hours *)
Lemma base_phi_low i o r c : (15 <= r)%nat -> base_phi i o r c = 0.
Proof. intros H. unfold base_phi. replace (Nat.ltb r 15) with false by (symmetry; apply Nat.ltb_ge; exact H). reflexivity. Qed.
Lemma loop_at m a n f s : (a <= s < a + n)%nat -> diagonal_loop m a n f s s = f (s - a)%nat.
Proof. intros H. assert (E := loop_in m a n f (s - a)). replace (a + (s - a))%nat with s in E by lia. apply E. lia. Qed.
Theorem C99_arm_and_odometer_partial : forall sel i o s c, consistent sel -> (c < STATE_CNT sel)%nat ->
  (level_arm sel = true /\ (arm_start sel <= s < arm_start sel + 3)%nat \/ odo_sf sel = true /\ s = odo_start sel) ->
  transition sel i o s c = (if Nat.eqb s c then 1 - s_dt i / 36000 else 0) /\
  transition sel i o c s = (if Nat.eqb s c then 1 - s_dt i / 36000 else 0).
Proof.
  intros sel i o s c C Hc Hs. apply layout_iff in C. unfold transition. cbv zeta.
  destruct (Nat.eqb_spec s c) as [<-|D].
  - destruct sel as [[] [] [] []]; try discriminate C; destruct Hs as [[F Hs]|[F Hs]]; try discriminate F; cbn [gyro_sf acce_sf level_arm odo_sf];
      split; repeat match goal with
      | |- diagonal_loop ?m ?a ?n ?f s s = _ => first [rewrite (loop_out m a n f s s) by (revert Hs; ev; lia) | rewrite (loop_at m a n f s) by (revert Hs; ev; lia); reflexivity]
      end.
  - destruct sel as [[] [] [] []]; try discriminate C; destruct Hs as [[F Hs]|[F Hs]]; try discriminate F; cbn [gyro_sf acce_sf level_arm odo_sf];
      split; rewrite ?loop_off by lia; rewrite ?assign_out by (revert Hs Hc; ev; lia);
      first [apply base_phi_low; revert Hs; ev; lia | apply base_phi_out; revert Hs; ev; lia].
Qed.
Print Assumptions C99_arm_and_odometer_partial.

(** the blocks of the first fifteen states are those of the filter without optional states (C19, C75-C77) *)
Theorem C99_base_partial : forall sel i o a b r c, (a < 5)%nat -> (b < 5)%nat -> (r < 3)%nat -> (c < 3)%nat ->
  transition sel i o (3 * a + r)%nat (3 * b + c)%nat = entry (phi_block i (o_gt_corr o) (o_at_corr o) a b) r c.
Proof.
  intros sel i o a b r c Ha Hb Hr Hc.
  assert (B : base_phi i o (3 * a + r)%nat (3 * b + c)%nat = entry (phi_block i (o_gt_corr o) (o_at_corr o) a b) r c).
  { unfold base_phi. replace (Nat.ltb (3 * a + r) 15) with true by (symmetry; apply Nat.ltb_lt; lia).
    replace (Nat.ltb (3 * b + c) 15) with true by (symmetry; apply Nat.ltb_lt; lia). cbn [andb].
    rewrite !(Nat.mul_comm 3), !Nat.div_add_l, !(Nat.add_comm (_ * 3)), !Nat.mod_add, !(Nat.mod_small _ 3), !(Nat.div_small _ 3), !Nat.add_0_r by lia. reflexivity. }
  rewrite <- B. unfold transition. cbv zeta.
  assert (G : (15 <= gyro_start sel)%nat) by (unfold gyro_start, BASE_STATE; lia).
  assert (A : (15 <= acce_start sel)%nat) by (unfold acce_start; destruct (acce_sf sel); lia).
  assert (M : (15 <= arm_start sel)%nat) by (unfold arm_start; destruct (level_arm sel); lia).
  assert (O : (15 <= odo_start sel)%nat) by (unfold odo_start; destruct (odo_sf sel); lia).
  destruct (odo_sf sel), (level_arm sel), (acce_sf sel), (gyro_sf sel); rewrite ?loop_out by lia; rewrite ?assign_out by lia; reflexivity.
Qed.
Print Assumptions C99_base_partial.

(** * C100  lever arm of the antenna *)
(** the innovation is in metres and depends on the lever arm by its attitude *)
Theorem C100_innovation_partial : forall i lb x pos, pos_z i (vadd lb x) pos = vadd (pos_z i lb pos) (mvec (n_Cbn (s_nav i)) x).
Proof. intros i [a b c] [d e f] pos. unfold pos_z. destruct (n_Cbn (s_nav i)). apply vec_ext; simpl; ring. Qed.
Print Assumptions C100_innovation_partial.
(** the design matrix has the horizontal rows more than six million times smaller, and the vertical one with the opposite sign of
    what the feedback (which adds the estimate to the lever arm) needs *)
Theorem C100_design_REFUTED : forall sel i lb c, consistent sel -> level_arm sel = true -> (c < 3)%nat -> 0 <= vz (n_pos (s_nav i)) ->
  Rabs (position_design sel i lb 0%nat (arm_start sel + c)%nat) <= / 6000000 * Rabs (entry (n_Cbn (s_nav i)) 0%nat c) /\
  Rabs (position_design sel i lb 1%nat (arm_start sel + c)%nat) * Rabs (cos (vx (n_pos (s_nav i)))) <= / 6000000 * Rabs (entry (n_Cbn (s_nav i)) 1%nat c) /\
  position_design sel i lb 2%nat (arm_start sel + c)%nat = entry (n_Cbn (s_nav i)) 2%nat c.
Proof.
  intros sel i lb c C F Hc Hh. apply layout_iff in C.
  set (lat := vx (n_pos (s_nav i))) in *. set (h := vz (n_pos (s_nav i))) in *.
  destruct (radii lat) as [R1 R2].
  assert (P : forall r, (r < 3)%nat -> position_design sel i lb r (arm_start sel + c)%nat =
     entry (mscale (-1) (mmul (mdiag (V (1 / (RM lat + h)) (1 / ((RN lat + h) * cos lat)) (-1))) (n_Cbn (s_nav i)))) r c).
  { intros r Hr. unfold position_design. cbv zeta. rewrite F. fold lat h.
    rewrite assign_in by (unfold arm_size; rewrite ?F; lia). unfold of_mat. f_equal; lia. }
  rewrite !P by lia.
  set (A := RM lat + h) in *. set (B := RN lat + h) in *.
  assert (HA : 6000000 <= A) by (unfold A; lra). assert (HB : 6000000 <= B) by (unfold B; lra).
  assert (IA : Rabs (1 / A) <= / 6000000).
  { unfold Rdiv. rewrite Rmult_1_l, Rabs_pos_eq by (left; apply Rinv_0_lt_compat; lra). apply Rinv_le_contravar; lra. }
  assert (IB : Rabs (1 / B) <= / 6000000).
  { unfold Rdiv. rewrite Rmult_1_l, Rabs_pos_eq by (left; apply Rinv_0_lt_compat; lra). apply Rinv_le_contravar; lra. }
  refine (conj _ (conj _ _)).
  - apply Rle_trans with (Rabs (1 / A) * Rabs (entry (n_Cbn (s_nav i)) 0%nat c)).
    + rewrite <- Rabs_mult. right. rewrite <- Rabs_Ropp. f_equal. destruct (n_Cbn (s_nav i)), c as [|[|[|c]]]; simpl; try lia; ring.
    + apply Rmult_le_compat_r; [apply Rabs_pos|exact IA].
  - apply Rle_trans with (Rabs (1 / B) * Rabs (entry (n_Cbn (s_nav i)) 1%nat c)).
    + rewrite <- !Rabs_mult. destruct (Req_dec (cos lat) 0) as [Z|Z].
      * rewrite Z, Rmult_0_r, Rabs_R0. apply Rabs_pos.
      * right. rewrite <- Rabs_Ropp. f_equal. destruct (n_Cbn (s_nav i)), c as [|[|[|c]]]; simpl; try lia; field; split; lra.
    + apply Rmult_le_compat_r; [apply Rabs_pos|exact IB].
  - destruct (n_Cbn (s_nav i)), c as [|[|[|c]]]; simpl; try lia; ring.
Qed.
Print Assumptions C100_design_REFUTED.
Example C100_case : consistent {| gyro_sf := false; acce_sf := false; level_arm := true; odo_sf := false |}.
Proof. rewrite layout_iff. reflexivity. Qed.

(** * C101  build options *)
Theorem C101_options_partial : forall b, EST_ODO_SCALE b = false ->
  gyro_sf (configure b) = EST_GYRO_SCALE b /\ acce_sf (configure b) = EST_ACCE_SCALE b /\ level_arm (configure b) = EST_GNSS_LEVEL_ARM b.
Proof. intros [g a l o] H. simpl in *. rewrite H, orb_false_r. auto. Qed.
Print Assumptions C101_options_partial.
(** the option for the odometer switches the scale factors of the accelerometers on and never the one of the odometer *)
Theorem C101_odometer_REFUTED : forall b, odo_sf (configure b) = false /\ (EST_ODO_SCALE b = true -> acce_sf (configure b) = true).
Proof. intros [g a l o]. split; [reflexivity|]. simpl. intros ->. apply orb_true_r. Qed.
Print Assumptions C101_odometer_REFUTED.
Example C101_case : EST_ODO_SCALE (Build true false true false) = false. Proof. reflexivity. Qed.
