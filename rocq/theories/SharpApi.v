(** C162 at the interface. *)
From Coq Require Import Reals ZArith Lra List.
From mathcomp Require Import all_ssreflect ssralg matrix.
From Verif Require Import Rfield RealMath ConvertModel InsModel FusionBase KalmanModel KalmanSpec KalmanProofs FusionSpec FusionModel FusionProofs FusionCov FusionRest FusionCases
  InnovationProofs WheelProofs JacobianSpec JacobianMatrix AccuracySpec AccuracyProofs SharpSpec SharpProofs SharpFilter
  AlignModel ApiModel ApiSpec ApiProofs FusionFix.
Import GRing.Theory.
Local Open Scope ring_scope.

Definition good_fix (g : gnss) : Prop := fix_mode (g_mode g) = true /\ forall k, (k < 3)%N -> Rlt 0 (coord (g_std g) k).
Lemma noise_pd o g : Rlt 0 (o_gnss_scale o) -> (forall k, (k < 3)%N -> Rlt 0 (coord (g_std g) k)) -> pd (fix_noise o g).
Proof.
move=> sc H. apply: diagonal_pd => i. rewrite mxE eqxx. have m3 : (i %% 3 < 3)%N by rewrite ltn_pmod.
have := H _ m3. by case: (i %% 3)%N m3 => [|[|[|//]]] _ /= h; apply: Rmult_lt_0_compat => //; exact: Rmult_lt_0_compat.
Qed.
Lemma fix_defined s g : psd (kP (f_kf s)) -> Rlt 0 (o_gnss_scale (f_opt s)) -> good_fix g -> exists t, gnss_update s g = Some t /\
  psd (kP (f_kf t)) /\ f_opt t = f_opt s.
Proof.
move=> hp sc [M H]. have P := noise_pd _ _ sc H.
have [k [K _]] : exists k', kf_update (f_kf s) (blocks (a := 3) (fun _ c => pos_h (f_ins s) (o_lb_gnss (f_opt s)) c))
   (column (fun _ => pos_z (f_ins s) (o_lb_gnss (f_opt s)) (fix_place g))) (fix_noise (f_opt s) g) = Some k' /\ True.
  have := update_defined _ _ (f_kf s) (blocks (a := 3) (fun _ c => pos_h (f_ins s) (o_lb_gnss (f_opt s)) c))
    (column (fun _ => pos_z (f_ins s) (o_lb_gnss (f_opt s)) (fix_place g))) (fix_noise (f_opt s) g) hp P.
  case: (kf_update _ _ _ _) => [k|] X; first by exists k. by case: X.
have D : exists t, gnss_update s g = Some t.
  rewrite /gnss_update mode_rule M /measure_pos. cbn [set_ins f_kf f_ins f_opt].
  change (pos_h (mode_set (sensors_set (f_ins s) SENSOR_GNSS) (Z.to_nat (Z.modulo (g_mode g) 65536))) (o_lb_gnss (f_opt s))) with
    (pos_h (f_ins s) (o_lb_gnss (f_opt s))).
  change (pos_z (mode_set (sensors_set (f_ins s) SENSOR_GNSS) (Z.to_nat (Z.modulo (g_mode g) 65536))) (o_lb_gnss (f_opt s))) with
    (pos_z (f_ins s) (o_lb_gnss (f_opt s))).
  rewrite K. cbn [bind]. by eexists.
case: D => t T. exists t. split=> //. have [k' [K' [E [Eo _]]]] := fix_update _ _ _ M T. split=> //.
rewrite E. apply: update_psd K' => //. exact: pd_psd.
Qed.
Lemma fixes_defined gs : forall s, psd (kP (f_kf s)) -> Rlt 0 (o_gnss_scale (f_opt s)) -> (forall g, List.In g gs -> good_fix g) ->
  exists t, fixes_run s gs = Some t.
Proof.
elim: gs => [|g r IH] s hp sc H; first by exists s.
have [t [T [P E]]] := fix_defined _ _ hp sc (H g (or_introl erefl)). cbn [fixes_run]. rewrite T. cbn [bind].
apply: IH => //; [by rewrite E|by move=> x X; apply: H; right].
Qed.
Lemma api_fixes gs : forall d s t, d_status d = RGIOE_STATUS_NAVIGATION -> d_fusion d = Some s -> fixes_run s gs = Some t ->
  exists d' l, api_run d (List.map (fun g => AGnss (Some g)) gs) = Some (d', l) /\ d_status d' = RGIOE_STATUS_NAVIGATION /\ d_fusion d' = Some t.
Proof.
elim: gs => [|g r IH] d s t St Fu.
  move=> [<-]. by exists d, nil.
move=> /(bindP _ _ _)[u U T]. cbn [List.map api_run api_do]. rewrite /api_gnss St Fu. cbn [bind]. rewrite U.
have [d' [l [A [B C]]]] := IH (d_with_fusion d (Some u) (d_det d)) u t St erefl T.
rewrite A. by exists d', (RCode RGIOE_OK :: l).
Qed.
Lemma place_quantity s k e : o_lb_gnss (f_opt s) = vzero -> (k < 3)%N -> coord (antenna_error s e) k = e (inord k) ord0.
Proof.
move=> L H. rewrite /antenna_error L.
have -> : mvec (n_Cbn (s_nav (f_ins s))) vzero = vzero by case: (n_Cbn _) => *; rewrite /mvec /vzero /=; congr V; ring.
case E : (part e 0) => [a b c]. case: (part e 2) => x y z. rewrite /cross /vadd /vzero /=.
move: E. rewrite /part muln0 => -[<- <- <-].
by case: k H => [|[|[|//]]] _ /=; rewrite !Rmult_0_l Rminus_0_r Rplus_0_r.
Qed.
Lemma place_state s t k : o_lb_gnss (f_opt s) = vzero -> (k < 3)%N ->
  variance_of (kP (f_kf t)) (fun e => coord (antenna_error s e) k) (state_variance (kP (f_kf t)) k).
Proof.
move=> L H. exists (delta_mx (inord k) ord0). split=> // e. by rewrite place_quantity // pick_row.
Qed.
Lemma api_sharp d s gs b q0 v0 : d_status d = RGIOE_STATUS_NAVIGATION -> d_fusion d = Some s ->
  symmetric (kP (f_kf s)) -> psd (kP (f_kf s)) -> o_lb_gnss (f_opt s) = vzero -> Rlt 0 (o_gnss_scale (f_opt s)) ->
  (forall g, List.In g gs -> good_fix g) ->
  api_do d (AResult b) = Some (d, RPva (Some q0)) -> p_pos_std q0 = Some v0 ->
  exists d' l, api_run d (List.map (fun g => AGnss (Some g)) gs) = Some (d', l) /\
    forall b' d'' q v, api_do d' (AResult b') = Some (d'', RPva (Some q)) -> p_pos_std q = Some v -> forall k, (k < 3)%N ->
      Rle (Rmult (Rmult (coord v k) (coord v k)) (Rplus 1 (Rmult (Rmult (coord v0 k) (coord v0 k)) (weight_of (f_opt s) k gs))))
          (Rmult (coord v0 k) (coord v0 k)).
Proof.
move=> St Fu sp hp L sc H E0 V0.
have [t T] := fixes_defined gs s hp sc H. have [d' [l [A [St' Fu']]]] := api_fixes gs d s t St Fu T.
exists d', l. split=> // b' d'' q v E V k Hk.
have [D0 _] := result_accuracies _ _ _ _ _ St Fu E0. have [_ Q0] := D0 _ V0 k Hk.
have [D1 _] := result_accuracies _ _ _ _ _ St' Fu' E. have [_ Q1] := D1 _ V k Hk.
rewrite Q0 Q1. apply: (fixes_sharp gs s t k) => //.
- move=> g G. have [M P] := H g G. by split=> //; apply: P.
- exact: place_state.
- exact: place_state.
Qed.
(** behind the fixes the place is known as well as each of them says *)
Lemma api_each d s gs b q0 v0 : d_status d = RGIOE_STATUS_NAVIGATION -> d_fusion d = Some s ->
  symmetric (kP (f_kf s)) -> psd (kP (f_kf s)) -> o_lb_gnss (f_opt s) = vzero -> Rlt 0 (o_gnss_scale (f_opt s)) ->
  (forall g, List.In g gs -> good_fix g) ->
  api_do d (AResult b) = Some (d, RPva (Some q0)) -> p_pos_std q0 = Some v0 ->
  exists d' l, api_run d (List.map (fun g => AGnss (Some g)) gs) = Some (d', l) /\
    forall b' d'' q v, api_do d' (AResult b') = Some (d'', RPva (Some q)) -> p_pos_std q = Some v -> forall k, (k < 3)%N ->
      Rle (coord v k) (coord v0 k) /\
      forall g, List.In g gs -> Rle (coord v k) (Rmult (coord (g_std g) k) (sqrt (o_gnss_scale (f_opt s)))).
Proof.
move=> St Fu sp hp L sc H E0 V0. have [d' [l [A B]]] := api_sharp d s gs b q0 v0 St Fu sp hp L sc H E0 V0.
exists d', l. split=> // b' d'' q v E V k Hk. have C := B b' d'' q v E V k Hk.
have [t T] := fixes_defined gs s hp sc H. have [e' [l' [A' [St' Fu']]]] := api_fixes gs d s t St Fu T.
rewrite A in A'. case: A' => ed el. subst e' l'.
have [D1 _] := result_accuracies _ _ _ _ _ St' Fu' E. have [p1 _] := D1 _ V k Hk.
have [D0 _] := result_accuracies _ _ _ _ _ St Fu E0. have [p0 _] := D0 _ V0 k Hk.
have Hstd : forall g, List.In g gs -> Rlt 0 (coord (g_std g) k) by move=> g G; have [_ P] := H g G; apply: P.
have w0 := weight_pos _ _ _ sc Hstd. clear -C p0 p1 w0 Hstd sc. set x := coord v k in C p1 *. set y := coord v0 k in C p0 *. set W := weight_of _ _ _ in C w0.
have yW : Rle 0 (Rmult (Rmult y y) W) by apply: Rmult_le_pos => //; exact: Rle_0_sqr.
split.
  apply: Rsqr_incr_0_var => //. rewrite /Rsqr. have := Rle_0_sqr x. rewrite /Rsqr => s0. nra.
move=> g G. have wg : Rle (Rinv (Rmult (Rmult (coord (g_std g) k) (coord (g_std g) k)) (o_gnss_scale (f_opt s)))) W.
  rewrite /W. clear -G Hstd sc. elim: gs G Hstd => [|h r IH] G Hstd; first by case: G.
  have hs : forall g, List.In g r -> Rlt 0 (coord (g_std g) k) by move=> z Z; apply: Hstd; right.
  have wr := weight_pos _ _ _ sc hs. cbn [weight_of]. case: G => [->|G]; first lra.
  have := IH G hs. have h0 := Hstd h (or_introl erefl).
  have := Rinv_0_lt_compat _ (Rmult_lt_0_compat _ _ (Rmult_lt_0_compat _ _ h0 h0) sc). lra.
have g0 := Hstd g G. set z := coord (g_std g) k in wg g0 *. set c := o_gnss_scale _ in sc wg *.
have s0 := sqrt_lt_R0 _ sc. apply: Rsqr_incr_0_var; last by apply: Rmult_le_pos; lra.
rewrite Rsqr_mult (Rsqr_sqrt _ (Rlt_le _ _ sc)) /Rsqr.
have r0 : Rlt 0 (Rmult (Rmult z z) c) by apply: Rmult_lt_0_compat => //; exact: Rmult_lt_0_compat.
set r := Rmult (Rmult z z) c in wg r0 *. have i0 := Rinv_0_lt_compat _ r0. have ir : Rmult (Rinv r) r = IZR 1 by rewrite Rinv_l //; lra.
have x0 := Rle_0_sqr x. rewrite /Rsqr in x0. have y0 := Rle_0_sqr y. rewrite /Rsqr in y0.
set X := Rmult x x in C x0 *. set Y := Rmult y y in C y0 yW. clearbody X Y r W.
have [e|e] := Req_dec Y 0; first by rewrite e in C; lra.
have C2 : Rle (Rmult X (Rmult Y (Rinv r))) Y.
  apply: Rle_trans C. apply: Rmult_le_compat_l => //. have := Rmult_le_compat_l _ _ _ y0 wg. lra.
apply: (Rmult_le_reg_r (Rmult Y (Rinv r))); first by apply: Rmult_lt_0_compat => //; lra.
have -> : Rmult r (Rmult Y (Rinv r)) = Rmult Y (Rmult (Rinv r) r) by ring. by rewrite ir Rmult_1_r.
Qed.

(** ** a case *)
Lemma sharp_case p : let s := case_start 1 false (V 1 1 1) in exists d q v,
  d_status d = RGIOE_STATUS_NAVIGATION /\ d_fusion d = Some s /\ symmetric (kP (f_kf s)) /\ psd (kP (f_kf s)) /\ o_lb_gnss (f_opt s) = vzero /\
  Rlt 0 (o_gnss_scale (f_opt s)) /\ good_fix (case_fix 100) /\
  api_do d (AResult p) = Some (d, RPva (Some q)) /\ p_pos_std q = Some v /\ coord v 0 = IZR 1 /\
  weight_of (f_opt s) 0 [:: case_fix 100; case_fix 100] = IZR 2.
Proof.
move=> s. have [d [q [v [a [b [c [e [f g]]]]]]]] := accuracy_case p. exists d, q, v.
split=> //. split=> //. split; first by apply: square_symmetric; exact: diagonal_symmetric.
split=> //. split=> //. split; first by rewrite /=; lra.
split; first by split=> // k; case: k => [|[|[|//]]] _ /=; lra.
split=> //. split=> //. split=> //. rewrite /=. field.
Qed.
Lemma sharp_defined : let s := case_start 1 false (V 1 1 1) in
  symmetric (kP (f_kf s)) /\ psd (kP (f_kf s)) /\ (exists t, gnss_update s (case_fix 100) = Some t) /\ (exists t, velocity_update_f s (V 1 0 0) = Some t) /\
  (exists t, measure_nhc s = Some t) /\ (exists t, zero_velocity s = Some t) /\
  (let s := set_height s 0 0 5 in symmetric (kP (f_kf s)) /\ psd (kP (f_kf s)) /\ (4 < f_base s)%Z /\ exists t, height_update s 7 = Some t).
Proof.
move=> s. have sp : symmetric (kP (f_kf s)) by apply: square_symmetric; exact: diagonal_symmetric.
have hp : psd (kP (f_kf s)) := proj1 fix_gain_case.
have D : forall m (h : 'M[R]_(m, 15)) z r, pd r -> exists k, kf_update (f_kf s) h z r = Some k.
  move=> m h z r P. have := update_defined _ _ (f_kf s) h z r hp P. by case: (kf_update _ _ _ _) => [k|] X; [exists k|case: X].
have one : Rmult 1 1 = IZR 1 by ring.
split=> //. split=> //. split.
  have [] := fix_defined s (case_fix 100) hp _ _; [by rewrite /=; lra|by split=> // k; case: k => [|[|[|//]]] _ /=; lra|by move=> t [T _]; exists t].
split; first by have [_ [_ [_ [H _]]]] := wheel_case; exact: H.
split.
  rewrite /measure_nhc. set h := lower2 _. set z := lower2 _. set r := _ *m _.
  have P : pd r by rewrite /r diag2_square; apply: diagonal_pd => i; rewrite mxE eqxx; case: i => [[|[|//]] hi] /=; lra.
  have [k ->] := D _ h z r P. by eexists.
split.
  rewrite /zero_velocity. set r := diagonal _. set h := blocks _. set z := column _.
  have P : pd r by apply: diagonal_pd => i; rewrite mxE eqxx; case: (_ %% _)%N => [|[|k]] /=; lra.
  have [k ->] := D _ h z r P. by eexists.
split=> //. split=> //. split=> //.
rewrite /height_update. cbn [f_base set_height Z.ltb Z.compare Pos.compare Pos.compare_cont f_kf f_opt f_ins].
set h := row_of _ _. set z := one_by_one _. set r := one_by_one _.
have P : pd r by apply: one_pd1; rewrite /=; lra.
have [k ->] := D _ h z r P. cbn [bind]. by eexists.
Qed.
