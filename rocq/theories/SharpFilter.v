(** C162: the measurements of the filter. *)
From Coq Require Import Reals ZArith Lra List.
From mathcomp Require Import all_ssreflect ssralg matrix.
From Verif Require Import Rfield RealMath ConvertModel InsModel FusionBase KalmanModel KalmanSpec KalmanProofs FusionSpec FusionModel FusionProofs FusionCov FusionRest FusionCases
  InnovationProofs WheelProofs JacobianSpec JacobianMatrix AccuracySpec AccuracyProofs SharpSpec SharpProofs
  AlignModel ApiModel ApiSpec ApiProofs FusionFix.
Import GRing.Theory.
Local Open Scope ring_scope.

Lemma antenna_row s k e : (k < 3)%N ->
  coord (antenna_error s e) k = (blocks (a := 3) (fun _ c => pos_h (f_ins s) (o_lb_gnss (f_opt s)) c) *m e) (inord k) ord0.
Proof.
move=> H. rewrite blocks_apply mxE /antenna_error /design /pos_h /err_of. set l := mvec _ (o_lb_gnss _). cbn [x_pos x_vel x_att x_gb x_ab].
move: (part e 0) (part e 1) (part e 2) (part e 3) (part e 4) l => [a b c] [a1 b1 c1] [a2 b2 c2] [a3 b3 c3] [a4 b4 c4] [x y z].
case: k H => [|[|[|//]]] _; rewrite inordK //= /skew /mvec /cross /vadd /eye /mzero /=; ring.
Qed.
Lemma wheel_row s k e : (k < 3)%N -> coord (wheel_speed_error s e) k = (wheel_rows s *m e) (inord k) ord0.
Proof.
move=> H. rewrite /wheel_rows blocks_apply mxE /wheel_speed_error /design /vel_h /err_of /Cbv. cbn [x_pos x_vel x_att x_gb x_ab].
move: (part e 0) (part e 1) (part e 2) (part e 3) (part e 4) (o_lb_wheel _) (n_vn _) (n_Cbn _) (euler_to_dcm _) =>
  [a b c] [a1 b1 c1] [a2 b2 c2] [a3 b3 c3] [a4 b4 c4] [x y z] [x1 y1 z1] [? ? ? ? ? ? ? ? ?] [? ? ? ? ? ? ? ? ?].
case: k H => [|[|[|//]]] _; rewrite inordK //= /skew /mmul /mscale /mtrans /mvec /cross /vadd /vsub /mzero /=; ring.
Qed.
Lemma speed_row k e : (k < 3)%N -> coord (speed_error e) k = (blocks (a := 3) (fun _ c => zupt_h c) *m e) (inord k) ord0.
Proof.
move=> H. rewrite blocks_apply mxE /speed_error /design /zupt_h /err_of. cbn [x_pos x_vel x_att x_gb x_ab].
move: (part e 0) (part e 1) (part e 2) (part e 3) (part e 4) => [a b c] [a1 b1 c1] [a2 b2 c2] [a3 b3 c3] [a4 b4 c4].
case: k H => [|[|[|//]]] _; rewrite inordK //= /mvec /vadd /eye /mzero /=; ring.
Qed.
Lemma row_of_quantity (f : 'cV[R]_15 -> vec) (h : 'M[R]_(3, 15)) i : (forall e, coord (f e) i = (h *m e) (inord i) ord0) ->
  forall e, coord (f e) i = (row_of h i *m e) ord0 ord0.
Proof. move=> E e. rewrite E !mxE. apply: eq_bigr => k _. by rewrite !mxE. Qed.
Lemma lower_quantity (f : 'cV[R]_15 -> vec) (h : 'M[R]_(3, 15)) (i : 'I_2) : (forall e, coord (f e) i.+1 = (h *m e) (inord i.+1) ord0) ->
  forall e, coord (f e) i.+1 = (lower2 h *m e) i ord0.
Proof. move=> E e. rewrite E !mxE. apply: eq_bigr => k _. by rewrite !mxE. Qed.

(** ** a fix *)
Lemma noise_entry o g k : (k < 3)%N -> fix_noise o g (inord k) (inord k) = Rmult (Rmult (coord (g_std g) k) (coord (g_std g) k)) (o_gnss_scale o).
Proof. move=> H. rewrite mxE eqxx inordK //. case: k H => [|[|[|//]]] _ //. Qed.
Lemma noise_psd o g : Rle 0 (o_gnss_scale o) -> psd (fix_noise o g).
Proof.
move=> H. apply: diagonal_psd => i. rewrite mxE eqxx.
case: (_ %% _)%N => [|[|k]] /=; apply: Rmult_le_pos => //; exact: Rle_0_sqr.
Qed.
Lemma noise_symmetric o g : symmetric (fix_noise o g).
Proof. exact: diagonal_symmetric. Qed.
Lemma fix_update s g t : fix_mode (g_mode g) = true -> gnss_update s g = Some t -> exists k,
  kf_update (f_kf s) (blocks (a := 3) (fun _ c => pos_h (f_ins s) (o_lb_gnss (f_opt s)) c)) (column (fun _ => pos_z (f_ins s) (o_lb_gnss (f_opt s)) (fix_place g))) (fix_noise (f_opt s) g) = Some k /\
  f_kf t = k /\ f_opt t = f_opt s /\ (forall e, antenna_error t e = antenna_error s e).
Proof.
move=> M. rewrite /gnss_update mode_rule M. move=> H. case: (bindP _ _ _ H) => s2 H2 [<-]. case: (bindP _ _ _ H2) => k K [<-]. exists k. by split.
Qed.
Lemma fix_sharp s g t k a a' : symmetric (kP (f_kf s)) -> psd (kP (f_kf s)) -> Rle 0 (o_gnss_scale (f_opt s)) -> fix_mode (g_mode g) = true ->
  gnss_update s g = Some t -> (k < 3)%N -> variance_of (kP (f_kf s)) (fun e => coord (antenna_error s e) k) a ->
  variance_of (kP (f_kf t)) (fun e => coord (antenna_error s e) k) a' ->
  combined a (Rmult (Rmult (coord (g_std g) k) (coord (g_std g) k)) (o_gnss_scale (f_opt s))) a'.
Proof.
move=> sp hp sc M U Hk A A'. have [kf [K [E _]]] := fix_update _ _ _ M U. rewrite E in A'.
have B := update_quantity _ _ _ _ _ _ (inord k) _ _ _ sp hp (noise_symmetric _ _) (noise_psd _ _ sc) K (fun e => antenna_row s k e Hk) A A'.
by rewrite noise_entry in B.
Qed.
(** ** wheel speed *)
Lemma wheel_sharp s v t k a a' : symmetric (kP (f_kf s)) -> psd (kP (f_kf s)) -> velocity_update_f s v = Some t ->
  (k < 3)%N -> (o_nhc (f_opt s) = false -> k = 0%N) ->
  variance_of (kP (f_kf s)) (fun e => coord (wheel_speed_error s e) k) a -> variance_of (kP (f_kf t)) (fun e => coord (wheel_speed_error s e) k) a' ->
  combined a (let o := f_opt s in let x := coord (V (o_odo_std o) (o_nhc_std0 o) (o_nhc_std1 o)) k in Rmult x x) a'.
Proof.
move=> sp hp. rewrite /velocity_update_f. case: (o_nhc (f_opt s)) => H Hk Hn A; case: (bindP _ _ _ H) => kf K [<-]; cbn [f_kf set_kf set_ins set_flag on_meas_update set_monitor] => A'.
- rewrite diag3_square in K.
  have B := update_quantity _ _ _ _ _ _ (inord k) _ _ _ sp hp (diagonal_symmetric _ _) _ K (fun e => wheel_row s k e Hk) A A'.
  move: B. rewrite mxE eqxx inordK //. case: k Hk {A A' Hn} => [|[|[|//]]] _ B; apply: B; apply: diagonal_psd => i; rewrite mxE eqxx; case: (_ %% _)%N => [|[|j]] /=; exact: Rle_0_sqr.
- rewrite (Hn erefl) /= in A A' *.
  have B := update_quantity _ _ _ _ _ _ ord0 _ _ _ sp hp (scalar_symmetric _ _) _ K (row_of_quantity _ _ 0 (fun e => wheel_row s 0 e isT)) A A'.
  move: B. rewrite /one_by_one mxE eqxx mulr1n. apply. move=> x. rewrite /variance mul_mx_scalar -scalemxAl mxE mxE big_ord_recl big_ord0 addr0 mxE.
  apply: Rmult_le_pos; exact: Rle_0_sqr.
Qed.
Lemma scalar_psd x : Rle 0 x -> psd (one_by_one x).
Proof.
move=> h y. rewrite /variance mul_mx_scalar -scalemxAl mxE mxE big_ord_recl big_ord0 addr0 mxE.
apply: Rmult_le_pos => //; exact: Rle_0_sqr.
Qed.
(** ** standing still *)
Lemma combined_less a r a' b : Rle 0 a -> Rle 0 r -> combined a r a' -> Rle b a' -> combined a r b.
Proof. rewrite /combined => a0 r0 C L. apply: Rle_trans C. apply: Rmult_le_compat_r => //. lra. Qed.
Lemma still_sharp s t k a a' : symmetric (kP (f_kf s)) -> psd (kP (f_kf s)) -> zero_velocity s = Some t ->
  (k < 3)%N -> variance_of (kP (f_kf s)) (fun e => coord (speed_error e) k) a -> variance_of (kP (f_kf t)) (fun e => coord (speed_error e) k) a' ->
  combined a (Rmult (o_zupt_std (f_opt s)) (o_zupt_std (f_opt s))) a'.
Proof.
move=> sp hp. rewrite /zero_velocity => H Hk A. case: (bindP _ _ _ H) => kf K {}H A'.
have A1 := quantity_row _ (kP kf) _ (inord k) _ (fun e => speed_row k e Hk). set a1 := variance _ _ in A1.
have pr : psd (diagonal (a := 3) (fun _ => let std := Rmult (o_zupt_std (f_opt s)) (o_zupt_std (f_opt s)) in V std std std)).
  apply: diagonal_psd => i; rewrite mxE eqxx; case: (_ %% _)%N => [|[|j]] /=; exact: Rle_0_sqr.
have B : combined a (Rmult (o_zupt_std (f_opt s)) (o_zupt_std (f_opt s))) a1.
  have B := update_quantity _ _ _ _ _ _ (inord k) _ _ _ sp hp (diagonal_symmetric _ _) pr K (fun e => speed_row k e Hk) A A1.
  move: B. rewrite mxE eqxx inordK //. clearbody a1. by case: k Hk {A A' A1} => [|[|[|//]]].
have a0 : Rle 0 a by case: A => w [_ ->]; apply: hp.
have e' := row_quantity _ _ _ (inord k) _ _ (fun e => speed_row k e Hk) A'.
apply: (combined_less _ _ a1) => //; first exact: Rle_0_sqr. rewrite e'. rewrite /a1. move: H. case: (o_zupta _).
- case: ifP => // _ H. case: (bindP _ _ _ H) => k2 K2 [<-]. cbn [f_kf set_kf set_flag].
  apply: (update_shrinks _ _ _ _ _ _ _ _ (scalar_symmetric _ _) _ (scalar_psd _ (Rle_0_sqr _)) K2).
  + exact: update_symmetric sp (diagonal_symmetric _ _) K.
  + exact: update_psd hp pr K.
- move=> [<-]. exact: Rle_refl.
Qed.
(** ** no sideways motion *)
Lemma diag2_square a b : diagonal (a := 2) (fun _ => V a b 0) *m diagonal (fun _ => V a b 0) = diagonal (fun _ => V (Rmult a a) (Rmult b b) 0).
Proof.
apply/matrixP => i j. rewrite !mxE (bigD1 i) //= big1 ?addr0; last by move=> k Hk; rewrite !mxE eq_sym (negbTE Hk) mul0r.
rewrite !mxE eqxx. case: (i == j) => //=; last by rewrite mulr0. case: i => [[|[|//]] hi] //=.
Qed.
Lemma side_sharp s t k a a' : symmetric (kP (f_kf s)) -> psd (kP (f_kf s)) -> measure_nhc s = Some t -> (k < 2)%N ->
  variance_of (kP (f_kf s)) (fun e => coord (wheel_speed_error s e) k.+1) a -> variance_of (kP (f_kf t)) (fun e => coord (wheel_speed_error s e) k.+1) a' ->
  combined a (let o := f_opt s in let x := coord (V (o_nhc_std0 o) (o_nhc_std1 o) 0) k in Rmult x x) a'.
Proof.
move=> sp hp. rewrite /measure_nhc => H Hk; case: (bindP _ _ _ H) => kf K [<-]; cbn [f_kf set_kf set_flag] => A A'.
rewrite diag2_square in K.
have B := update_quantity _ _ _ _ _ _ (Ordinal Hk) _ _ _ sp hp (diagonal_symmetric _ _) _ K
  (lower_quantity _ _ (Ordinal Hk) (fun e => wheel_row s k.+1 e Hk)) A A'.
move: B. rewrite mxE eqxx /=. case: k Hk {A A'} => [|[|//]] _ B; apply: B; apply: diagonal_psd => i; rewrite mxE eqxx; case: i => [[|[|//]] hi] /=; exact: Rle_0_sqr.
Qed.
(** ** barometric height *)
Lemma height_sharp s h t a a' : symmetric (kP (f_kf s)) -> psd (kP (f_kf s)) -> (4 < f_base s)%Z -> height_update s h = Some t ->
  variance_of (kP (f_kf s)) (fun e => coord (antenna_error s e) 2) a -> variance_of (kP (f_kf t)) (fun e => coord (antenna_error s e) 2) a' ->
  combined a (Rmult (o_zupta_std (f_opt s)) (o_zupta_std (f_opt s))) a'.
Proof.
move=> sp hp b. rewrite /height_update (proj2 (Z.ltb_lt _ _) b) => H A. case: (bindP _ _ _ H) => s1 H1. case: ifP => // _ [<-].
case: (bindP _ _ _ H1) => kf K [<-]; cbn [f_kf set_height set_kf set_ins set_flag] => A'.
have B := update_quantity _ _ _ _ _ _ ord0 _ _ _ sp hp (scalar_symmetric _ _) (scalar_psd _ (Rle_0_sqr _)) K (row_of_quantity _ _ 2 (fun e => antenna_row s 2 e isT)) A A'.
move: B. by rewrite /one_by_one mxE eqxx mulr1n.
Qed.

(** ** fixes one behind the other *)
Lemma reciprocal_step a a1 a2 r w : Rle 0 a -> Rle 0 a1 -> Rle 0 a2 -> Rlt 0 r -> Rle 0 w -> combined a r a1 ->
  Rle (Rmult a2 (Rplus 1 (Rmult a1 w))) a1 -> Rle (Rmult a2 (Rplus 1 (Rmult a (Rplus (Rinv r) w)))) a.
Proof.
rewrite /combined => a0 b0 c0 r0 w0 C D.
have C' : Rle (Rmult a1 (Rplus 1 (Rmult a (Rinv r)))) a.
  apply: (Rmult_le_reg_r r) => //. have -> : Rmult (Rmult a1 (Rplus 1 (Rmult a (Rinv r)))) r = Rmult a1 (Rplus a r) by field; lra. exact: C.
have [E|E] := Req_dec a1 0.
  have -> : a2 = IZR 0 by rewrite E in D; nra. lra.
apply: (Rmult_le_reg_r a1); first lra.
have i0 := Rinv_0_lt_compat _ r0. set i := Rinv r in i0 C' *.
have -> : Rmult (Rmult a2 (Rplus 1 (Rmult a (Rplus i w)))) a1 = Rplus (Rmult a2 (Rmult a1 (Rplus 1 (Rmult a i)))) (Rmult (Rmult a2 a) (Rmult a1 w)) by ring.
have F := Rmult_le_compat_l _ _ _ c0 C'. have G := Rmult_le_compat_l _ _ _ a0 D. nra.
Qed.
Lemma weight_pos o k gs : Rlt 0 (o_gnss_scale o) -> (forall g, List.In g gs -> Rlt 0 (coord (g_std g) k)) -> Rle 0 (weight_of o k gs).
Proof.
move=> sc. elim: gs => [|g r IH] H; first exact: Rle_refl.
apply: Rplus_le_le_0_compat; last by apply: IH => x X; apply: H; right.
apply: Rlt_le. apply: Rinv_0_lt_compat. have h := H g (or_introl erefl). apply: Rmult_lt_0_compat => //. exact: Rmult_lt_0_compat.
Qed.
Fixpoint fixes_run (s : fusion) (gs : list gnss) : option fusion := match gs with nil => Some s | cons g r => bind (gnss_update s g) (fun t => fixes_run t r) end.
Lemma fixes_sharp gs : forall s t k a a', symmetric (kP (f_kf s)) -> psd (kP (f_kf s)) -> Rlt 0 (o_gnss_scale (f_opt s)) ->
  (forall g, List.In g gs -> fix_mode (g_mode g) = true /\ Rlt 0 (coord (g_std g) k)) ->
  fixes_run s gs = Some t -> (k < 3)%N -> variance_of (kP (f_kf s)) (fun e => coord (antenna_error s e) k) a ->
  variance_of (kP (f_kf t)) (fun e => coord (antenna_error s e) k) a' ->
  Rle (Rmult a' (Rplus 1 (Rmult a (weight_of (f_opt s) k gs)))) a.
Proof.
elim: gs => [|g r IH] s t k a a' sp hp sc H.
  move=> [<-] Hk A A'. rewrite (row_quantity _ _ _ (inord k) _ _ (fun e => antenna_row s k e Hk) A) (row_quantity _ _ _ (inord k) _ _ (fun e => antenna_row s k e Hk) A') /=. lra.
move=> /(bindP _ _ _)[u U T] Hk A A'. have [M std] := H g (or_introl erefl).
have [kf [K [E [Eo Ea]]]] := fix_update _ _ _ M U.
have sp' : symmetric (kP (f_kf u)) by rewrite E; apply: update_symmetric K => //; exact: noise_symmetric.
have hp' : psd (kP (f_kf u)) by rewrite E; apply: update_psd K => //; apply: noise_psd; lra.
have A1 := quantity_row _ (kP (f_kf u)) _ (inord k) _ (fun e => antenna_row s k e Hk). set a1 := variance _ _ in A1.
have C := fix_sharp _ _ _ _ _ _ sp hp (Rlt_le _ _ sc) M U Hk A A1.
have Ef : forall p v, variance_of p (fun e => coord (antenna_error s e) k) v -> variance_of p (fun e => coord (antenna_error u e) k) v.
  move=> p v [w [W V]]. exists w. split=> // e. by rewrite Ea.
have H' : forall g0, List.In g0 r -> fix_mode (g_mode g0) = true /\ Rlt 0 (coord (g_std g0) k) by move=> x X; apply: H; right.
rewrite -Eo in sc.
have D := IH u t k a1 a' sp' hp' sc H' T Hk (Ef _ _ A1) (Ef _ _ A'). rewrite Eo in D sc.
have nn : forall p v, psd p -> variance_of p (fun e => coord (antenna_error s e) k) v -> Rle 0 v.
  by move=> p v P [w [_ ->]]; apply: P.
have pt : psd (kP (f_kf t)).
  clear - hp' T sc Eo H'. rewrite -Eo in sc. elim: r u hp' T sc H' {Eo} => [|x r IH] u hp; first by move=> [<-].
  move=> /(bindP _ _ _)[y Y T] sc H'. have [M _] := H' x (or_introl erefl). have [kf [K [E [Eo _]]]] := fix_update _ _ _ M Y.
  apply: (IH y) => //; [|by rewrite Eo|by move=> z Z; apply: H'; right]. rewrite E. apply: update_psd K => //. apply: noise_psd. lra.
apply: (reciprocal_step _ a1) => //; [exact: nn hp A|exact: nn hp' A1|exact: nn pt A'| |].
- apply: Rmult_lt_0_compat => //. exact: Rmult_lt_0_compat.
- apply: weight_pos => // x X. by case: (H' x X).
Qed.
