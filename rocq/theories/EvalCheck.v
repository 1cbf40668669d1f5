(** Proofs about the verdict of the comparison with a reference. *)
From Coq Require Import Reals List Sorted Arith Lia Lra ZArith.
From Verif Require Import RealMath EarthModel EvalModel EvalSpec EvalProofs EvalStat.
From Verif Require EarthProofs.
Import ListNotations.
Open Scope R_scope.

Lemma values_given (f : row -> sample) (P : row -> R -> Prop) l : (forall r, In r l -> exists x, f r = Val x /\ P r x) ->
  exists v, values (map f l) = Some v /\ Forall2 P l v.
Proof.
  induction l as [|r l IH]; intros H; cbn [map values]; [exists []; split; constructor|].
  destruct (H r (or_introl eq_refl)) as (x & X & Y). destruct IH as (v & V & F); [intros; apply H; right; assumption|].
  rewrite X, V. exists (x :: v). split; [reflexivity|constructor; assumption].
Qed.
Lemma errors_given ref target : ascending ref -> exists e2 e3,
  values (map (err_2d ref) (common target ref)) = Some e2 /\ values (map (err_3d ref) (common target ref)) = Some e3 /\
  Forall2 (horizontal ref) (common target ref) e2 /\ Forall2 (spatial ref) (common target ref) e3.
Proof.
  intros S.
  destruct (values_given (err_2d ref) (horizontal ref) (common target ref)) as (e2 & V2 & F2).
  { intros r I. destruct (common_around target ref r I) as (a & b & A). eexists. split; [apply (err_2d_is ref a b r S A)|]. exists a, b. auto. }
  destruct (values_given (err_3d ref) (spatial ref) (common target ref)) as (e3 & V3 & F3).
  { intros r I. destruct (common_around target ref r I) as (a & b & A). eexists. split; [apply (err_3d_is ref a b r S A)|]. exists a, b. auto. }
  exists e2, e3. auto.
Qed.
Lemma horizontal_nonneg ref l v : Forall2 (horizontal ref) l v -> forall x, In x v -> 0 <= x.
Proof. induction 1 as [|r e l v (a & b & _ & ->) _ IH]; intros x I; [destruct I|]. destruct I as [<-|I]; [apply sqrt_pos|apply IH, I]. Qed.
Lemma spatial_nonneg ref l v : Forall2 (spatial ref) l v -> forall x, In x v -> 0 <= x.
Proof. induction 1 as [|r e l v (a & b & _ & ->) _ IH]; intros x I; [destruct I|]. destruct I as [<-|I]; [apply sqrt_pos|apply IH, I]. Qed.
Lemma check_is ref target lim2 lim3 : ascending ref -> common target ref <> [] -> exists e2 e3,
  Forall2 (horizontal ref) (common target ref) e2 /\ Forall2 (spatial ref) (common target ref) e3 /\
  (check target ref lim2 lim3 = 0%nat <->
   exceeds (snd (sigmas e3 (bins_of target))) lim3 = false /\ exceeds (snd (sigmas e2 (bins_of target))) lim2 = false).
Proof.
  intros S N. destruct (errors_given ref target S) as (e2 & e3 & V2 & V3 & F2 & F3). exists e2, e3. split; [exact F2|]. split; [exact F3|].
  unfold check. destruct (common target ref) as [|r rs]; [congruence|]. rewrite V2, V3, verdict_parts.
  rewrite (abs_nonneg e2 (horizontal_nonneg _ _ _ F2)), (abs_nonneg e3 (spatial_nonneg _ _ _ F3)). reflexivity.
Qed.
Lemma check_common ref target lim2 lim3 : check target ref lim2 lim3 = 0%nat -> common target ref <> [].
Proof. unfold check. destruct (common target ref); [discriminate|]. intros _; discriminate. Qed.
Lemma bins_two target : (2 <= bins_of target)%nat.
Proof. unfold bins_of. lia. Qed.

(** horizontal and spatial errors are functions of the row *)
Lemma forall2_fun {A B} (P : A -> B -> Prop) l v : (forall x y z, P x y -> P x z -> y = z) -> Forall2 P l v -> forall u, Forall2 P l u -> u = v.
Proof.
  intros D. induction 1 as [|x y l v Y F IH]; intros u U; inversion U; subst; [reflexivity|]. f_equal; [eapply D; eassumption|apply IH; assumption].
Qed.
Lemma horizontal_fun ref : ascending ref -> forall r x y, horizontal ref r x -> horizontal ref r y -> x = y.
Proof.
  intros S r x y (a & b & A & ->) (c & d & C & ->). assert (E := err_2d_is ref a b r S A). rewrite (err_2d_is ref c d r S C) in E. congruence.
Qed.
Lemma spatial_fun ref : ascending ref -> forall r x y, spatial ref r x -> spatial ref r y -> x = y.
Proof.
  intros S r x y (a & b & A & ->) (c & d & C & ->). assert (E := err_3d_is ref a b r S A). rewrite (err_3d_is ref c d r S C) in E. congruence.
Qed.
Lemma check_errors ref target lim2 lim3 e2 e3 : ascending ref -> common target ref <> [] ->
  Forall2 (horizontal ref) (common target ref) e2 -> Forall2 (spatial ref) (common target ref) e3 ->
  (check target ref lim2 lim3 = 0%nat <->
   exceeds (snd (sigmas e3 (bins_of target))) lim3 = false /\ exceeds (snd (sigmas e2 (bins_of target))) lim2 = false).
Proof.
  intros S N F2 F3. destruct (check_is ref target lim2 lim3 S N) as (u2 & u3 & G2 & G3 & R).
  rewrite (forall2_fun _ _ _ (horizontal_fun ref S) F2 _ G2), (forall2_fun _ _ _ (spatial_fun ref S) F3 _ G3) in R. exact R.
Qed.
Lemma check_pass ref target lim2 lim3 : ascending ref -> 0 <= lim2 -> 0 <= lim3 -> check target ref lim2 lim3 = 0%nat ->
  common target ref <> [] /\
  forall e2 e3 lo2 hi2 lo3 hi3, Forall2 (horizontal ref) (common target ref) e2 -> Forall2 (spatial ref) (common target ref) e3 ->
    extremes lo2 hi2 e2 -> extremes lo3 hi3 e3 ->
    let n := Nat.max (length target / 500) 100 in
    (crowded lo2 hi2 n e2 \/ 9544 / 10000 * INR (length e2) <= not_above (lim2 + width lo2 hi2 n) e2) /\
    (crowded lo3 hi3 n e3 \/ 9544 / 10000 * INR (length e3) <= not_above (lim3 + width lo3 hi3 n) e3).
Proof.
  intros S L2 L3 H. assert (N := check_common _ _ _ _ H). split; [exact N|]. intros e2 e3 lo2 hi2 lo3 hi3 F2 F3 X2 X3. cbv zeta.
  apply (check_errors ref target lim2 lim3 e2 e3 S N F2 F3) in H as [H3 H2].
  split; eapply exceeds_share; eauto; apply bins_two.
Qed.
Lemma check_fail ref target lim2 lim3 e2 e3 lo2 hi2 lo3 hi3 : ascending ref -> 0 <= lim2 -> 0 <= lim3 -> common target ref <> [] ->
  Forall2 (horizontal ref) (common target ref) e2 -> Forall2 (spatial ref) (common target ref) e3 ->
  extremes lo2 hi2 e2 -> extremes lo3 hi3 e3 -> check target ref lim2 lim3 <> 0%nat ->
  let n := Nat.max (length target / 500) 100 in
  below (lim2 - width lo2 hi2 n) e2 < 9544 / 10000 * INR (length e2) \/ below (lim3 - width lo3 hi3 n) e3 < 9544 / 10000 * INR (length e3).
Proof.
  intros S L2 L3 N F2 F3 X2 X3 H. cbv zeta. rewrite (check_errors ref target lim2 lim3 e2 e3 S N F2 F3) in H.
  destruct (exceeds (snd (sigmas e3 (bins_of target))) lim3) eqn:E3.
  - right. eapply exceeds_reject; eauto. apply bins_two.
  - destruct (exceeds (snd (sigmas e2 (bins_of target))) lim2) eqn:E2; [|destruct H; auto]. left. eapply exceeds_reject; eauto. apply bins_two.
Qed.
Lemma crowded_pass l B lo hi lim : extremes lo hi l -> (2 <= B)%nat -> 0 <= lim -> crowded lo hi B l -> exceeds (snd (sigmas l B)) lim = false.
Proof. intros X B2 L C. rewrite (sigmas_crowded l B lo hi X B2 C). cbn [snd exceeds]. destruct (Rlt_dec lim 0); [lra|reflexivity]. Qed.
Lemma check_blind ref target lim2 lim3 e2 e3 lo2 hi2 lo3 hi3 : ascending ref -> 0 <= lim2 -> 0 <= lim3 -> common target ref <> [] ->
  Forall2 (horizontal ref) (common target ref) e2 -> Forall2 (spatial ref) (common target ref) e3 ->
  extremes lo2 hi2 e2 -> extremes lo3 hi3 e3 ->
  let n := Nat.max (length target / 500) 100 in crowded lo2 hi2 n e2 -> crowded lo3 hi3 n e3 -> check target ref lim2 lim3 = 0%nat.
Proof.
  intros S L2 L3 N F2 F3 X2 X3 n C2 C3. apply (check_errors ref target lim2 lim3 e2 e3 S N F2 F3).
  split; eapply crowded_pass; eauto; apply bins_two.
Qed.

(** ** All errors equal *)
Lemma repeat_extremes c n : extremes c c (repeat c (S n)).
Proof. split; [left; reflexivity|]. split; [left; reflexivity|]. intros x I. apply repeat_spec in I. subst. lra. Qed.
Lemma repeat_below c n x : below x (repeat c n) = if Rlt_dec c x then INR n else 0.
Proof.
  unfold below. induction n as [|n IH]; [cbn; destruct (Rlt_dec c x); reflexivity|]. cbn [repeat filter]. destruct (Rlt_dec c x); cbn [length]; [|exact IH].
  f_equal. f_equal. apply INR_eq. exact IH.
Qed.
Lemma sigmas_equal c n B : (2 <= B)%nat -> exists a s, sigmas (repeat c (S n)) B = (a, Val s) /\ s <= c + 1 / INR B.
Proof.
  intros B2. assert (X := repeat_extremes c n).
  assert (C : ~ crowded c c B (repeat c (S n))) by (intros [L _]; lra).
  destruct (sigmas_fair _ B c c X B2 C) as (a & s & E & _ & R & _). exists a, s. split; [exact E|].
  unfold width in R. destruct (Req_EM_T c c); [|congruence]. rewrite repeat_below, repeat_length in R.
  assert (P := pos_INR (S n)). destruct (Rlt_dec c (s - 1 / INR B)); [|lra]. lra.
Qed.
Lemma forall2_repeat {A} (P : A -> R -> Prop) l c : (forall x, In x l -> P x c) -> Forall2 P l (repeat c (length l)).
Proof. induction l as [|x l IH]; intros H; cbn [length repeat]; constructor; [apply H; left; reflexivity|apply IH; intros; apply H; right; assumption]. Qed.
Lemma equal_pass c n B lim : (100 <= B)%nat -> c + 1 / 100 <= lim -> exceeds (snd (sigmas (repeat c (S n)) B)) lim = false.
Proof.
  intros H L. destruct (sigmas_equal c n B ltac:(lia)) as (a & s & -> & R). cbn [snd exceeds]. destruct (Rlt_dec lim s); [|reflexivity]. exfalso.
  assert (Q : 100 <= INR B) by (replace 100 with (INR 100) by (rewrite INR_IZR_INZ; reflexivity); apply le_INR; lia).
  assert (1 / INR B <= 1 / 100) by (unfold Rdiv; rewrite !Rmult_1_l; apply Rinv_le_contravar; lra). lra.
Qed.
(** a solution that is the reference *)
Lemma perfect_pass ref target lim2 lim3 : ascending ref -> common target ref <> [] -> 1 / 100 <= lim2 -> 1 / 100 <= lim3 ->
  (forall r, In r (common target ref) -> forall a b, around ref a b (r_t r) ->
     r_lat r = at_time r_lat a b (r_t r) /\ r_lon r = at_time r_lon a b (r_t r) /\ r_h r = at_time r_h a b (r_t r)) ->
  check target ref lim2 lim3 = 0%nat.
Proof.
  intros S N L2 L3 H.
  assert (Z : forall r, In r (common target ref) -> horizontal ref r 0 /\ spatial ref r 0).
  { intros r I. destruct (common_around target ref r I) as (a & b & A). destruct (H r I a b A) as (H1 & H2 & H3).
    split; exists a, b; (split; [exact A|]); unfold east_of, north_of, above; rewrite H1 at 1; rewrite <- H2, <- ?H3, <- ?H1; rewrite <- sqrt_0 at 1; f_equal; ring. }
  assert (F2 := forall2_repeat (horizontal ref) (common target ref) 0 (fun r I => proj1 (Z r I))).
  assert (F3 := forall2_repeat (spatial ref) (common target ref) 0 (fun r I => proj2 (Z r I))).
  apply (check_errors ref target lim2 lim3 _ _ S N F2 F3). destruct (common target ref) as [|r rs]; [congruence|]. cbn [length].
  split; apply equal_pass; unfold bins_of; try lia; lra.
Qed.

(** the second sigma of equal errors, with 100 bins *)
Lemma repeat_less c n i : less (repeat c n) 100 i = if Rlt_dec c (edge (repeat c n) 100 (S i)) then n else 0%nat.
Proof. apply INR_eq. change (below (edge (repeat c n) 100 (S i)) (repeat c n) = INR (if Rlt_dec c (edge (repeat c n) 100 (S i)) then n else 0%nat)). rewrite repeat_below. destruct (Rlt_dec c _); reflexivity. Qed.
Lemma INR100 : INR 100 = 100. Proof. rewrite INR_IZR_INZ. reflexivity. Qed.
Lemma sigma_equal c n : snd (sigmas (repeat c (S n)) 100) = Val (c + 9544 / 10000 / 100).
Proof.
  assert (X := repeat_extremes c n). assert (B2 : (2 <= 100)%nat) by lia.
  assert (C : ~ crowded c c 100 (repeat c (S n))) by (intros [L _]; lra).
  destruct (sigmas_fair _ 100 c c X B2 C) as (a & s & E & _ & _ & I). rewrite E. cbn [snd]. rewrite <- I.
  assert (N := length_pos _ 100 c c X B2).
  destruct (quantile_at _ 100 c c X B2 (9544 / 10000) ltac:(lra)) as (j & J & V & Q).
  { rewrite (first_bin_equal _ 100 c c X B2 eq_refl). lra. }
  rewrite Q. clear Q E I. unfold width. destruct (Req_EM_T c c); [|congruence]. rewrite INR100.
  assert (ED : forall i, edge (repeat c (S n)) 100 i = c - 1 / 2 + INR i * (1 / 100)).
  { intros i. rewrite (edge_is _ 100 c c X B2), (low_is _ c c X). unfold width. destruct (Req_EM_T c c); [|congruence]. rewrite INR100. reflexivity. }
  rewrite (cdf_less _ 100 B2 j J), repeat_less, repeat_length, ED in V. rewrite (cdf_less _ 100 B2 j J), repeat_less, repeat_length, ED. rewrite repeat_length in N. 
  destruct (Rlt_dec c (c - 1 / 2 + INR (S j) * (1 / 100))) as [L|L]; [lra|]. change (INR 0) with 0 in *.
  assert (T : cdf (repeat c (S n)) 100 (S j) = S n).
  { unfold cdf in *. rewrite repeat_length. destruct (Nat.eqb_spec (S (S j)) 100); [reflexivity|]. rewrite repeat_less, ED in *.
    destruct (Rlt_dec c _); [reflexivity|]. change (INR 0) with 0 in V. lra. }
  assert (U : j = 49%nat).
  { assert (J1 : (S j <= 50)%nat) by (apply INR_le; rewrite (INR_IZR_INZ 50); change (IZR (Z.of_nat 50)) with 50; lra).
    assert (J2 : (50 < S (S j))%nat); [|lia]. apply INR_lt. rewrite (INR_IZR_INZ 50). change (IZR (Z.of_nat 50)) with 50.
    unfold cdf in V. destruct (Nat.eqb_spec (S (S j)) 100); [lia|]. rewrite repeat_less, ED in V.
    destruct (Rlt_dec c (c - 1 / 2 + INR (S (S j)) * (1 / 100))); [lra|]. change (INR 0) with 0 in V. lra. }
  subst j. rewrite T. f_equal. replace (INR 50) with 50 by (rewrite (INR_IZR_INZ 50); reflexivity). field. lra.
Qed.

(** ** Zero errors *)
Lemma spatial_zero ref a b r : ascending ref -> around ref a b (r_t r) -> -90 < at_time r_lat a b (r_t r) < 90 ->
  (err_3d ref r = Val 0 <-> r_lat r = at_time r_lat a b (r_t r) /\ r_lon r = at_time r_lon a b (r_t r) /\ r_h r = at_time r_h a b (r_t r)).
Proof.
  intros S A L. rewrite (err_3d_is ref a b r S A). split.
  - intros E. injection E as E. apply sqrt_eq_0 in E; [|nra].
    assert (E1 : east_of a b r = 0) by nra. assert (E2 : north_of a b r = 0) by nra. assert (E3 : above a b r = 0) by nra.
    unfold east_of, north_of, above in *. assert (P := PI_RGT_0).
    assert (M : 0 < RM (r_lat r * (PI / 180))) by (destruct (EarthProofs.RM_bounds (r_lat r * (PI / 180))); unfold semi_major, e2 in *; lra).
    assert (K : 0 < RN (at_time r_lat a b (r_t r) * (PI / 180))) by (destruct (EarthProofs.RN_bounds (at_time r_lat a b (r_t r) * (PI / 180))); unfold semi_major in *; lra).
    assert (D : 0 < PI / 180) by lra.
    assert (C : 0 < cos (at_time r_lat a b (r_t r) * (PI / 180))) by (apply cos_gt_0; nra).
    assert (T := Rmult_lt_0_compat _ _ K C).
    split; [|split; [|lra]].
    + apply Rmult_integral in E2 as [E2|E2]; [|lra]. apply Rmult_integral in E2 as [E2|E2]; lra.
    + apply Rmult_integral in E1 as [E1|E1]; [|lra]. apply Rmult_integral in E1 as [E1|E1]; lra.
  - intros (H1 & H2 & H3). f_equal. unfold east_of, north_of, above. rewrite H1 at 1. rewrite <- H2, <- H3, <- H1. rewrite <- sqrt_0. f_equal. ring.
Qed.

(** ** Cases *)
Definition ref_case (lon : R) : list row := [Row 0 0 lon 0 0 0 0 0 0 350; Row 10 0 lon 0 0 0 0 0 0 10].
Lemma ref_case_ascending lon : ascending (ref_case lon).
Proof. unfold ascending, ref_case. cbn [map r_t]. repeat constructor. lra. Qed.
Lemma ref_case_around lon t : 0 < t <= 10 -> around (ref_case lon) (Row 0 0 lon 0 0 0 0 0 0 350) (Row 10 0 lon 0 0 0 0 0 0 10) t.
Proof. intros H. split; [exists [], []; reflexivity|exact H]. Qed.
Definition off_case : list row := [Row 1 0 0 10 0 0 0 0 0 0; Row 2 0 0 10 0 0 0 0 0 0; Row 3 0 0 10 0 0 0 0 0 0; Row 4 0 0 1000 0 0 0 0 0 0].
Lemma off_common : common off_case (ref_case 0) = off_case.
Proof.
  unfold common, ref_case, off_case. cbn [last r_t filter].
  repeat (match goal with |- context [Rlt_dec ?a ?b] => destruct (Rlt_dec a b); [|lra] end). reflexivity.
Qed.
Lemma off_row t h : 0 < t <= 10 -> 0 <= h ->
  horizontal (ref_case 0) (Row t 0 0 h 0 0 0 0 0 0) 0 /\ spatial (ref_case 0) (Row t 0 0 h 0 0 0 0 0 0) h.
Proof.
  intros T H. split; (eexists; eexists; split; [apply (ref_case_around 0 t T)|]); unfold east_of, north_of, above, at_time; cbn [r_lat r_lon r_h r_t].
  - rewrite <- sqrt_0 at 1. f_equal. ring.
  - rewrite <- (sqrt_square h H) at 1. f_equal. ring.
Qed.
Lemma off_spatial : Forall2 (spatial (ref_case 0)) off_case [10; 10; 10; 1000].
Proof. repeat constructor; apply off_row; lra. Qed.
Lemma off_horizontal : Forall2 (horizontal (ref_case 0)) off_case (repeat 0 4).
Proof. repeat constructor; eapply (proj1 (off_row _ _ _ _)). Unshelve. all: lra. Qed.
Lemma off_extremes : extremes 10 1000 [10; 10; 10; 1000].
Proof. split; [left; reflexivity|]. split; [right; right; right; left; reflexivity|]. intros x [<-|[<-|[<-|[<-|[]]]]]; lra. Qed.
Lemma off_crowded : crowded 10 1000 100 [10; 10; 10; 1000].
Proof.
  split; [lra|]. unfold below, width. destruct (Req_EM_T 10 1000); [lra|]. rewrite INR100. cbn [filter].
  repeat (match goal with |- context [Rlt_dec ?a ?b] => destruct (Rlt_dec a b); try lra end). cbn [length INR]. lra.
Qed.
Lemma off_passes : check off_case (ref_case 0) (8 / 100) (8 / 100) = 0%nat.
Proof.
  apply (check_errors (ref_case 0) off_case (8 / 100) (8 / 100) (repeat 0 4) [10; 10; 10; 1000] (ref_case_ascending 0));
    rewrite ?off_common; [discriminate|apply off_horizontal|apply off_spatial|].
  change (bins_of off_case) with 100%nat. split; [apply (crowded_pass _ 100 10 1000); [apply off_extremes|lia|lra|apply off_crowded]|].
  apply equal_pass; [lia|lra].
Qed.
(** two rows on the reference *)
Definition on_case : list row := [Row 1 0 0 0 0 0 0 0 0 0; Row 2 0 0 0 0 0 0 0 0 0].
Lemma on_common : common on_case (ref_case 0) = on_case.
Proof.
  unfold common, ref_case, on_case. cbn [last r_t filter].
  repeat (match goal with |- context [Rlt_dec ?a ?b] => destruct (Rlt_dec a b); [|lra] end). reflexivity.
Qed.
Lemma on_fails : check on_case (ref_case 0) (9 / 1000) (9 / 1000) <> 0%nat.
Proof.
  intros H. apply (check_errors (ref_case 0) on_case (9 / 1000) (9 / 1000) (repeat 0 2) (repeat 0 2) (ref_case_ascending 0)) in H;
    rewrite ?on_common; [|discriminate| |].
  - destruct H as [H _]. change (bins_of on_case) with 100%nat in H. rewrite (sigma_equal 0 1) in H. cbn [exceeds] in H. destruct (Rlt_dec _ _); [discriminate|lra].
  - repeat constructor; eapply (proj1 (off_row _ _ _ _)).
  - repeat constructor; eapply (proj2 (off_row _ _ _ _)).
  Unshelve. all: lra.
Qed.
Lemma antimeridian : err_3d (ref_case 180) (Row 5 0 (-180) 0 0 0 0 0 0 0) = Val (2 * PI * 6378137).
Proof.
  rewrite (err_3d_is _ _ _ (Row 5 0 (-180) 0 0 0 0 0 0 0) (ref_case_ascending 180) (ref_case_around 180 5 ltac:(lra))). f_equal.
  unfold east_of, north_of, above, at_time, RN, semi_major. cbn [r_lat r_lon r_h r_t]. rewrite Rminus_0_r, Rmult_0_l, Rplus_0_r, Rmult_0_l.
  rewrite sin_0, cos_0, !Rmult_0_r, Rminus_0_r, sqrt_1. assert (P := PI_RGT_0).
  rewrite <- (sqrt_square (2 * PI * 6378137)) by lra. f_equal. field.
Qed.
Lemma heading_case : err_yaw (ref_case 0) (Row 5 0 0 0 0 0 0 0 0 355) = Val (-5).
Proof.
  destruct (yaw_error (ref_case 0) _ _ (Row 5 0 0 0 0 0 0 0 0 355) (ref_case_ascending 0) (ref_case_around 0 5 ltac:(lra))) as (d & e & D & Dr & -> & E & (k & K)).
  f_equal. destruct D as [j J]. unfold part in K. cbn [r_yaw r_t] in *.
  assert (J1 : j = 1%Z) by (assert (0 < j < 2)%Z by (split; apply lt_IZR; lra); lia). subst j.
  assert (d = 20) by lra. subst d. replace ((5 - 0) / (10 - 0)) with (1 / 2) in K by field.
  assert (K1 : k = 0%Z) by (assert (-1 < k < 1)%Z by (split; apply lt_IZR; lra); lia). subst k. lra.
Qed.
