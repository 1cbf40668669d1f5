(** The reported accuracies (C108). *)
From Coq Require Import Reals ZArith Lra.
From mathcomp Require Import all_ssreflect ssralg matrix.
From Verif Require Import Rfield RealMath ConvertModel ConvertProofs InsModel FusionBase KalmanModel KalmanSpec KalmanProofs FusionModel FusionProofs AlignModel ApiModel AccuracySpec
  FusionCases ApiSpec ApiProofs ApiCases ApiRest InnovationProofs FusionRest.
Import GRing.Theory.
Local Open Scope ring_scope.

Lemma state_var p i : (i < 15)%N -> state_variance p i = p (inord i) (inord i).
Proof.
move=> H. rewrite /state_variance /variance trmx_delta -rowE mxE (bigD1 (inord i)) //= big1 ?addr0; first by rewrite !mxE !eqxx mulr1.
move=> k Hk. by rewrite !mxE (negbTE Hk) mulr0.
Qed.
Lemma roots_dev p i v : (i + 2 < 15)%N -> roots (diag3 p i) = Some v -> deviations v p i.
Proof.
move=> H. rewrite /roots. case: Rle_dec => // a. case: Rle_dec => // b. case: Rle_dec => // c [<-] k.
have L : forall j, (j <= 2)%N -> (i + j < 15)%N by move=> j Hj; apply: leq_ltn_trans H; rewrite leq_add2l.
case: k => [|[|[|k]]] // _; rewrite /= state_var ?L // ?addn0; (split; first exact: sqrt_pos); exact: sqrt_def.
Qed.
Lemma roots_some p i : (i + 2 < 15)%N -> ((exists v, roots (diag3 p i) = Some v) <-> forall k, (k < 3)%N -> Rle 0 (state_variance p (i + k))).
Proof.
move=> H. have L : forall j, (j <= 2)%N -> (i + j < 15)%N by move=> j Hj; apply: leq_ltn_trans H; rewrite leq_add2l.
split.
- move=> [v E] k Hk. case: (roots_dev _ _ _ H E k Hk) => a <-. exact: Rle_0_sqr.
- move=> A. have a := A 0%N isT. have b := A 1%N isT. have c := A 2%N isT. rewrite !state_var ?L // addn0 in a, b, c.
  rewrite /roots /diag3 /=. case: Rle_dec => // ?. case: Rle_dec => // ?. case: Rle_dec => // ?. by eexists.
Qed.

Lemma accuracies s q : output s = Some q ->
  (forall v, p_pos_std q = Some v -> deviations v (kP (f_kf s)) 0) /\
  (forall v, p_vn_std q = Some v -> deviations v (kP (f_kf s)) 3) /\
  (forall v, p_atti_std q = Some v -> deviations v (kP (f_kf s)) 6).
Proof.
rewrite /output. case: (out_place s) => // pos [<-]. cbn [p_pos_std p_vn_std p_atti_std].
split; [|split] => v E; exact: roots_dev E.
Qed.
Lemma accuracies_defined s q : output s = Some q -> psd (kP (f_kf s)) ->
  p_pos_std q <> None /\ p_vn_std q <> None /\ p_atti_std q <> None.
Proof.
rewrite /output. case: (out_place s) => // pos [<-] P. cbn [p_pos_std p_vn_std p_atti_std].
have A : forall i, (i + 2 < 15)%N -> roots (diag3 (kP (f_kf s)) i) <> None.
  move=> i H. have [v ->] // := proj2 (roots_some (kP (f_kf s)) i H) (fun k _ => P _).
by split; [|split]; apply: A.
Qed.
(** an angle in degrees *)
Lemma degrees_variance v p k : deviations v p 6 -> (k < 3)%N ->
  (Rmult (coord v k) (coord v k) = Rmult (Rmult (Rdiv 180 PI) (Rdiv 180 PI)) (state_variance p (6 + k)) <-> state_variance p (6 + k) = IZR 0).
Proof.
move=> D Hk. case: (D k Hk) => _ ->. set x := state_variance _ _. clearbody x.
have P3 := PI2_3_2. have P4 : Rlt PI 4 by have := PI_4; have := PI_lt; lra.
set c := Rdiv 180 PI. have c1 : Rlt 1 c.
  rewrite /c. apply: (Rmult_lt_reg_r PI); first lra. rewrite /Rdiv Rmult_assoc Rinv_l; lra.
have c2 : Rlt 1 (Rmult c c) by nra. split=> E.
- have F : Rmult x (Rminus (Rmult c c) 1) = IZR 0 by lra. case: (Rmult_integral _ _ F) => //. lra.
- rewrite E. ring.
Qed.

Lemma result_accuracies d b d' q s : d_status d = RGIOE_STATUS_NAVIGATION -> d_fusion d = Some s ->
  api_do d (AResult b) = Some (d', RPva (Some q)) ->
  (forall v, p_pos_std q = Some v -> deviations v (kP (f_kf s)) 0) /\
  (forall v, p_vn_std q = Some v -> deviations v (kP (f_kf s)) 3) /\
  (forall v, p_atti_std q = Some v -> deviations v (kP (f_kf s)) 6) /\
  (psd (kP (f_kf s)) -> p_pos_std q <> None /\ p_vn_std q <> None /\ p_atti_std q <> None).
Proof.
move=> St Fu. rewrite /api_do /api_result St /df_output Fu. cbn [bind]. move=> [_ E].
have [A [B C]] := accuracies _ _ E. split=> //. split=> //. split=> //. exact: accuracies_defined.
Qed.
Lemma getter_accuracies d d' s v w : d_fusion d = Some s ->
  (api_do d AVel = Some (d', RTriple v (Some w)) -> deviations w (kP (f_kf s)) 3) /\
  (api_do d AAtti = Some (d', RTriple v (Some w)) -> deviations w (kP (f_kf s)) 6).
Proof.
move=> Fu. rewrite /api_do /api_vel /api_atti /df_output Fu. cbn [bind].
case E: (output s) => [q|]; cbn [bind]; last by split.
have [A [B C]] := accuracies _ _ E. by split=> -[_ _]; [apply: B|apply: C].
Qed.
Lemma attitude_units d b d' q s v k : d_status d = RGIOE_STATUS_NAVIGATION -> d_fusion d = Some s ->
  api_do d (AResult b) = Some (d', RPva (Some q)) -> p_atti_std q = Some v -> (k < 3)%N ->
  (Rmult (coord v k) (coord v k) = Rmult (Rmult (Rdiv 180 PI) (Rdiv 180 PI)) (state_variance (kP (f_kf s)) (6 + k)) <->
   coord v k = IZR 0).
Proof.
move=> St Fu H Ev Hk. have [_ [_ [C _]]] := result_accuracies _ _ _ _ _ St Fu H. have D := C _ Ev.
apply: (iff_trans (degrees_variance _ _ _ D Hk)). case: (D k Hk) => P <-. split; last by move=> ->; ring. nra.
Qed.
Lemma accuracy_case p : let s := case_start 1 false (V 1 1 1) in
  exists d q v, d_status d = RGIOE_STATUS_NAVIGATION /\ d_fusion d = Some s /\ psd (kP (f_kf s)) /\
  api_do d (AResult p) = Some (d, RPva (Some q)) /\ p_pos_std q = Some v /\ coord v 0 = IZR 1.
Proof.
move=> s. exists (Dev RGIOE_STATUS_NAVIGATION (case_opt 1 false) p (Al None 0 false false fusion_smooth gnss_none (case_opt 1 false) vzero) (Some s) fusion_smooth).
have P : psd (kP (f_kf s)) := proj1 fix_gain_case.
have [v Ev] := proj2 (roots_some (kP (f_kf s)) 0 isT) (fun k _ => P _).
eexists. exists v. split=> //. split=> //. split=> //. split; first reflexivity. split; first exact: Ev.
case: (roots_dev _ _ _ _ Ev 0%N isT) => // a. rewrite state_var //.
have -> : kP (f_kf s) (inord (0 + 0)) (inord (0 + 0)) = IZR 1; last by nra.
rewrite /= mxE (bigD1 (inord 0)) //= big1 ?addr0.
- rewrite !mxE eqxx /= inordK //=. exact: Rmult_1_l.
- move=> i Hi. rewrite !mxE eq_sym (negbTE Hi). exact: mul0r.
Qed.
