(** Properties C160, C161: how accurate the slowly varying states are said to be while nothing corrects them. [c] says which optional states
    the build has; histories are samples and refused fixes in any number and order. Over the reals. *)
From Coq Require Import Reals ZArith List Lia Lra Psatz.
From mathcomp Require Import all_ssreflect ssralg matrix.
From Verif Require Import RealMath EarthModel ConvertModel SmoothModel InsModel InsProofs FusionBase Rfield KalmanModel FusionModel FusionSpec FusionProofs
  FusionFeed ConvertSpec InsRest InsSpec InsRest2 FusionRest FusionCases LayoutModel LayoutProofs SelectModel WideModel WideNarrow WideRun.
From Verif Require Import SlowTable SlowProofs.
From Verif Require PropSelect PropWide.
Import GRing.Theory.

Section General.
Variables (c : selection) (i : ins) (o0 : option_t) (nav : navepoch) (o : option_t) (x : extra).
Hypothesis Hz : o_zupt o = false.
Hypothesis Hn : o_nhc o = false \/ o_odo o = true.
Hypothesis Hr : Rlt 0 (o_rate o).
Lemma start_of w : wide_initialize c (wide_new c i o0) nav o x = Some w ->
  w_flag w = Z0 /\ w_iter w = Z0 /\ w_opt w = o /\ s_dt (w_ins w) = Rdiv 1 (o_rate o) /\ kP (w_kf w) = of_table (init_cov c nav o x) /\ w_Q0 w = of_table (init_Q0 c o x).
Proof. by rewrite /wide_initialize; case: ifP => // _ [<-]. Qed.
(** one state of its own *)
Lemma closed (r : nat) (y v s : R) cs w : (r < STATE_CNT c)%coq_nat ->
  (forall j, s_dt j = Rdiv 1 (o_rate o) -> diagonal_row (transition c j o) (STATE_CNT c) r (Rminus 1 y)) ->
  Rmult (Rdiv 1 (o_rate o)) (init_Q0 c o x r r) = Rmult (Rmult 2 y) v -> Rlt 0 y /\ Rle y 1 -> s = level v y ->
  List.Forall (fun k => match k with CallImu _ => True | CallGnss g => fix_mode (g_mode g) = false | _ => False end) cs ->
  PropWide.wide_session c i o0 nav o x cs = Some w ->
  variance w r = Rplus s (Rmult (pow (Rminus 1 y) (Nat.mul 2 (samples cs))) (Rminus (init_cov c nav o x r r) s)).
Proof.
move=> hr hrow hq hy -> hc; rewrite /PropWide.wide_session; case E: (wide_initialize _ _ _ _ _) => [w0|] //= hrun.
have [h1 [h2 [h3 [h4 [h5 h6]]]]] := start_of _ E.
have hr' : (r < STATE_CNT c)%N by apply/ltP.
have hc' : forallb quiet cs = true by elim: hc => [|k l hk _ ih] //=; rewrite ih Bool.andb_true_r; case: k hk => //= g ->.
have hu : unconstrained (w_opt w0) by rewrite h3; split.
have eqb_eq (a b : nat) : (a == b) = Nat.eqb a b by apply/eqP/idP => [->|/PeanoNat.Nat.eqb_eq //]; rewrite PeanoNat.Nat.eqb_refl.
have K := quiet_variance c r (Rdiv 1 (o_rate o)) (Rminus 1 y) (init_Q0 c o x r r) (level v y) cs w0 w hr' h1 h2 hu h4 _ _ _ hc' hrun.
rewrite K.
- rewrite {1}/variance insubT h5 mxE -[X in pow (Rminus 1 y) X]/(Nat.mul 2 (samples cs)) pow_mult /= Rmult_1_r; reflexivity.
- rewrite h3 => j hj l hl; rewrite eqb_eq; apply: (hrow j hj); exact/ltP.
- by move=> a ha; rewrite h6 mxE ha.
rewrite -[RHS](level_fix v y) //.
have -> : Rmult (Rdiv 1 (o_rate o)) (Rmult (Rminus 1 y) (init_Q0 c o x r r)) = Rmult (Rminus 1 y) (Rmult (Rdiv 1 (o_rate o)) (init_Q0 c o x r r)) by ring.
by rewrite hq; ring.
Qed.
End General.

(** between the level and the start *)
Lemma between (p v s x : R) m : Rlt 0 x /\ Rle x 1 -> s = level v x -> p = v -> Rle 0 v ->
  Rle (Rmult v (Rminus 1 x)) (Rplus s (Rmult (pow (Rminus 1 x) (Nat.mul 2 m)) (Rminus p s))) /\
  Rle (Rplus s (Rmult (pow (Rminus 1 x) (Nat.mul 2 m)) (Rminus p s))) v.
Proof.
move=> hx -> -> hv; have [b1 b2] := level_bounds v x hv hx.
have [p1 p2] : Rle 0 (pow (Rminus 1 x) (Nat.mul 2 m)) /\ Rle (pow (Rminus 1 x) (Nat.mul 2 m)) 1 by apply: pow_unit; lra.
move: b1 b2 p1 p2; move: (level v x) (pow _ _) => l e b1 b2 p1 p2; split; nra.
Qed.
Lemma share_pos r T : Rlt 0 r -> Rle 1 (Rmult r T) -> Rlt 0 (Rdiv (Rdiv 1 r) T) /\ Rle (Rdiv (Rdiv 1 r) T) 1.
Proof.
move=> hr h; have hT : Rlt 0 T by nra.
split; first by do 2!apply: Rdiv_lt_0_compat => //; lra.
apply: (Rmult_le_reg_r (Rmult r T)); first by nra.
have -> : Rmult (Rdiv (Rdiv 1 r) T) (Rmult r T) = 1 by field; lra.
lra.
Qed.

(** ** C160: while nothing corrects them, the accuracies of the biases remain what is configured, but for the share that the sample
    interval has in the correlation time *)
Theorem C160_accelerometers : forall c i o0 nav o x cs w a, o_zupt o = false -> o_nhc o = false \/ o_odo o = true ->
  List.Forall (fun k => match k with CallImu _ => True | CallGnss g => fix_mode (g_mode g) = false | _ => False end) cs ->
  PropWide.wide_session c i o0 nav o x cs = Some w -> (a < 3)%coq_nat -> Rlt 0 (o_rate o) -> Rle 1 (Rmult (o_rate o) (o_at_corr o)) ->
  let v := Rmult (coord (o_ab_std o) a) (coord (o_ab_std o) a) in
  Rle (Rmult v (Rminus 1 (Rdiv (Rdiv 1 (o_rate o)) (o_at_corr o)))) (variance w (12 + a)) /\ Rle (variance w (12 + a)) v.
Proof.
move=> c i o0 nav o x cs w a hz hn hcs hw ha hr hT v.
have hx := share_pos _ _ hr hT; set y := Rdiv _ (o_at_corr o) in hx *.
have hs : (12 + a < STATE_CNT c)%coq_nat by rewrite /STATE_CNT /BASE_STATE -!plusE; lia.
rewrite (closed c i o0 nav o x hz hn (12 + a) y v (level v y) cs w hs _ _ hx erefl hcs hw).
- apply: between => //; last by apply: Rle_0_sqr.
  have -> : (12 + a)%N = (Nat.add (Nat.mul 3 4) a) by [].
  by rewrite (proj1 (PropSelect.C97_base_partial c nav o x)) //; lia.
- by move=> j hj; rewrite /y -hj; exact: row_ab.
have -> : (12 + a)%N = Nat.add 9 (Nat.add 3 a) by [].
rewrite Q0_bias; last lia.
have -> : Nat.ltb (Nat.add 3 a) 3 = false by apply/PeanoNat.Nat.ltb_ge; lia.
have -> : Nat.sub (Nat.add 3 a) 3 = a by lia.
rewrite /y /v; field; split; apply: Rgt_not_eq; rewrite /Rgt; nra.
Qed.
Theorem C160_gyroscopes : forall c i o0 nav o x cs w a, o_zupt o = false -> o_nhc o = false \/ o_odo o = true ->
  List.Forall (fun k => match k with CallImu _ => True | CallGnss g => fix_mode (g_mode g) = false | _ => False end) cs ->
  PropWide.wide_session c i o0 nav o x cs = Some w -> (a < 3)%coq_nat -> Rlt 0 (o_rate o) -> Rle 1 (Rmult (o_rate o) (o_gt_corr o)) ->
  gyro_sf c = false ->
  let v := Rmult (coord (o_gb_std o) a) (coord (o_gb_std o) a) in
  Rle (Rmult v (Rminus 1 (Rdiv (Rdiv 1 (o_rate o)) (o_gt_corr o)))) (variance w (9 + a)) /\ Rle (variance w (9 + a)) v.
Proof.
move=> c i o0 nav o x cs w a hz hn hcs hw ha hr hT hg v.
have hx := share_pos _ _ hr hT; set y := Rdiv _ (o_gt_corr o) in hx *.
have hs : (9 + a < STATE_CNT c)%coq_nat by rewrite /STATE_CNT /BASE_STATE -!plusE; lia.
rewrite (closed c i o0 nav o x hz hn (9 + a) y v (level v y) cs w hs _ _ hx erefl hcs hw).
- apply: between => //; last by apply: Rle_0_sqr.
  have -> : (9 + a)%N = (Nat.add (Nat.mul 3 3) a) by [].
  by rewrite (proj1 (PropSelect.C97_base_partial c nav o x)) //; lia.
- by move=> j hj; rewrite /y -hj; exact: row_gb.
have -> : (9 + a)%N = Nat.add 9 a by [].
rewrite Q0_bias; last lia.
have -> : Nat.ltb a 3 = true by apply/PeanoNat.Nat.ltb_lt; lia.
rewrite /y /v; field; split; apply: Rgt_not_eq; rewrite /Rgt; nra.
Qed.
Print Assumptions C160_accelerometers.
Print Assumptions C160_gyroscopes.

(** a history of samples at rest: at the crossing of the equator and the meridian of Greenwich, 100 samples in a second, no constraints *)
Definition resting (n : nat) : list call := List.repeat (CallImu (case_sample 0 0)) n.
Lemma resting_calls n : List.Forall (fun k => match k with CallImu _ => True | CallGnss g => fix_mode (g_mode g) = false | _ => False end) (resting n).
Proof. by elim: n => [|n ih]; constructor. Qed.
Lemma resting_samples n : samples (resting n) = n.
Proof. by elim: n => //= n ->. Qed.
Lemma resting_defined c x n : (Z.of_nat n <= int_max)%Z ->
  exists w, PropWide.wide_session c case_ins (case_opt 1 false) (case_nav vzero) (case_opt 1 false) x (resting n) = Some w.
Proof.
move=> hn; rewrite /PropWide.wide_session /wide_initialize.
have h1 : is_zero 100 = false by apply: not_zero_b; exact: (not_0_IZR 100).
have h2 : is_zero 3600 = false by apply: not_zero_b; exact: (not_0_IZR 3600).
rewrite /= h1 h2 /=.
have -> : resting n = List.map (fun t => CallImu (Imu t (i_gyro (case_sample 0 0)) (i_acce (case_sample 0 0)))) (List.repeat (IZR 0) n).
  by rewrite /resting; elim: n {hn} => //= n ->.
apply: (wide_rest_run c 0 0 0 case_q (Rdiv 1 100) case_unit real_hundredth case_place).
- exact: (case_rest 1 false vzero).
- by [].
- by [].
- by split => //; left.
- exact: (not_0_IZR 3600).
- exact: (not_0_IZR 3600).
- by rewrite List.repeat_length.
- by rewrite List.repeat_length.
by [].
Qed.
Example C160_case : exists w, PropWide.wide_session none case_ins (case_opt 1 false) (case_nav vzero) (case_opt 1 false) (Extra vzero vzero 0) (resting 1000) = Some w /\
  samples (resting 1000) = 1000%N /\ Rle 1 (Rmult (o_rate (case_opt 1 false)) (o_at_corr (case_opt 1 false))) /\ Rle 1 (Rmult (o_rate (case_opt 1 false)) (o_gt_corr (case_opt 1 false))).
Proof.
have [w hw] := resting_defined none (Extra vzero vzero 0) 1000 ltac:(by []).
exists w; split => //; split; first exact: resting_samples. split => /=; lra.
Qed.

(** ** C161: the optional states *)
(** scale factors: from the fourth power that they start with (C97) towards the configured square *)
Theorem C161_scale_partial : forall c i o0 nav o x cs w a, o_zupt o = false -> o_nhc o = false \/ o_odo o = true ->
  List.Forall (fun k => match k with CallImu _ => True | CallGnss g => fix_mode (g_mode g) = false | _ => False end) cs ->
  PropWide.wide_session c i o0 nav o x cs = Some w -> (a < 3)%coq_nat -> Rlt 0 (o_rate o) -> consistent c ->
  (gyro_sf c = true -> Rle 1 (Rmult (o_rate o) (o_gt_corr o)) ->
     let v := Rmult (coord (x_gs_std x) a) (coord (x_gs_std x) a) in let y := Rdiv (Rdiv 1 (o_rate o)) (o_gt_corr o) in
     let s := Rmult v (Rdiv (Rminus 1 y) (Rminus 1 (Rdiv y 2))) in
     variance w (gyro_start c + a) = Rplus s (Rmult (pow (Rminus 1 y) (Nat.mul 2 (samples cs))) (Rminus (Rmult v v) s))) /\
  (acce_sf c = true -> Rle 1 (Rmult (o_rate o) (o_at_corr o)) ->
     let v := Rmult (coord (x_as_std x) a) (coord (x_as_std x) a) in let y := Rdiv (Rdiv 1 (o_rate o)) (o_at_corr o) in
     let s := Rmult v (Rdiv (Rminus 1 y) (Rminus 1 (Rdiv y 2))) in
     variance w (acce_start c + a) = Rplus s (Rmult (pow (Rminus 1 y) (Nat.mul 2 (samples cs))) (Rminus (Rmult v v) s))).
Proof.
move=> c i o0 nav o x cs w a hz hn hcs hw ha hr hc; split=> hf hT v y s.
  have hx : Rlt 0 y /\ Rle y 1 := share_pos _ _ hr hT.
  have hs : (gyro_start c + a < STATE_CNT c)%coq_nat by rewrite /STATE_CNT /gyro_start /gyro_size hf -!plusE; lia.
  have [e _] := PropSelect.C97_scale_REFUTED c nav o x a hc ha; move: (e hf) => {}e.
  rewrite (closed c i o0 nav o x hz hn (gyro_start c + a) y v s cs w hs _ _ hx erefl hcs hw).
  - have -> : init_cov c nav o x (gyro_start c + a)%N (gyro_start c + a)%N = Rmult v v by rewrite [LHS]e /v; ring.
    by [].
  - by move=> j hj; rewrite /y -hj; exact: row_gs.
  rewrite [init_Q0 _ _ _ _ _](Q0_gs c o x a hc hf ha) /y /v; field; split; apply: Rgt_not_eq; rewrite /Rgt; nra.
have hx : Rlt 0 y /\ Rle y 1 := share_pos _ _ hr hT.
have hs : (acce_start c + a < STATE_CNT c)%coq_nat by rewrite /STATE_CNT /acce_start /gyro_start /acce_size hf -!plusE; lia.
have [_ e] := PropSelect.C97_scale_REFUTED c nav o x a hc ha; move: (e hf) => {}e.
rewrite (closed c i o0 nav o x hz hn (acce_start c + a) y v s cs w hs _ _ hx erefl hcs hw).
- have -> : init_cov c nav o x (acce_start c + a)%N (acce_start c + a)%N = Rmult v v by rewrite [LHS]e /v; ring.
  by [].
- by move=> j hj; rewrite /y -hj; exact: row_as.
rewrite [init_Q0 _ _ _ _ _](Q0_as c o x a hc hf ha) /y /v; field; split; apply: Rgt_not_eq; rewrite /Rgt; nra.
Qed.
Print Assumptions C161_scale_partial.
(** lever arm: waiting makes it more accurate, without limit *)
Theorem C161_arm_REFUTED : forall c i o0 nav o x cs w a, o_zupt o = false -> o_nhc o = false \/ o_odo o = true ->
  List.Forall (fun k => match k with CallImu _ => True | CallGnss g => fix_mode (g_mode g) = false | _ => False end) cs ->
  PropWide.wide_session c i o0 nav o x cs = Some w -> (a < 3)%coq_nat -> Rle 1 (Rmult (o_rate o) 36000) -> consistent c -> level_arm c = true ->
  variance w (arm_start c + a) = Rmult (pow (Rminus 1 (Rdiv (Rdiv 1 (o_rate o)) 36000)) (Nat.mul 2 (samples cs))) (Rdiv 1 1000000).
Proof.
move=> c i o0 nav o x cs w a hz hn hcs hw ha hT hc hf.
have hr : Rlt 0 (o_rate o) by nra.
have hx := share_pos _ _ hr hT; set y := Rdiv _ 36000 in hx *.
have hs : (arm_start c + a < STATE_CNT c)%coq_nat.
  exact: arm_inside.
rewrite (closed c i o0 nav o x hz hn (arm_start c + a) y 0 0 cs w hs _ _ hx _ hcs hw).
- rewrite [init_cov _ _ _ _ _ _](cov_arm c nav o x a hc hf ha); ring.
- move=> j hj; rewrite /y -hj; apply: row_arm => //; left; split; first by []. exact: (conj (PeanoNat.Nat.le_add_r _ _) (proj1 (PeanoNat.Nat.add_lt_mono_l _ _ _) ha)).
- rewrite [init_Q0 _ _ _ _ _](Q0_arm c o x a hc hf ha); ring.
by rewrite /level; ring.
Qed.
Print Assumptions C161_arm_REFUTED.
(** scale factor of the odometer: towards ten times the configured square *)
Theorem C161_odometer_REFUTED : forall c i o0 nav o x cs w, o_zupt o = false -> o_nhc o = false \/ o_odo o = true ->
  List.Forall (fun k => match k with CallImu _ => True | CallGnss g => fix_mode (g_mode g) = false | _ => False end) cs ->
  PropWide.wide_session c i o0 nav o x cs = Some w -> Rle 1 (Rmult (o_rate o) 36000) -> consistent c -> odo_sf c = true ->
  let y := Rdiv (Rdiv 1 (o_rate o)) 36000 in
  let s := Rmult (Rmult 10 (Rmult (x_odo_scale_std x) (x_odo_scale_std x))) (Rdiv (Rminus 1 y) (Rminus 1 (Rdiv y 2))) in
  variance w (odo_start c) = Rplus s (Rmult (pow (Rminus 1 y) (Nat.mul 2 (samples cs))) (Rminus (Rinv (pow 10 18)) s)).
Proof.
move=> c i o0 nav o x cs w hz hn hcs hw hT hc hf y s.
have hr : Rlt 0 (o_rate o) by nra.
have hx : Rlt 0 y /\ Rle y 1 := share_pos _ _ hr hT.
have hs : (odo_start c < STATE_CNT c)%coq_nat.
  exact: odo_inside.
rewrite (closed c i o0 nav o x hz hn (odo_start c) y (Rmult 10 (Rmult (x_odo_scale_std x) (x_odo_scale_std x))) s cs w hs _ _ hx erefl hcs hw).
- by rewrite (PropSelect.C97_odometer_REFUTED c nav o x hf).
- by move=> j hj; rewrite /y -hj; apply: row_arm => //; right.
by rewrite (Q0_odo c o x hc hf) /y; field; lra.
Qed.
Print Assumptions C161_odometer_REFUTED.

(** the unit of the case at rest for the longest time that the counters allow (248 days): the lever arm is said to be known a thousand times
    better (in variance), the scale factor of the odometer nine times worse than configured *)
Lemma long_power n : Z.of_nat n = int_max -> Rle (pow (Rminus 1 (Rdiv (Rdiv 1 100) 36000)) (Nat.mul 2 n)) (Rdiv 1 1000) /\
  Rle 0 (pow (Rminus 1 (Rdiv (Rdiv 1 100) 36000)) (Nat.mul 2 n)).
Proof.
move=> hn; set y := Rdiv (Rdiv 1 100) 36000.
have hy : y = Rdiv 1 3600000 by rewrite /y; field.
have y01 : Rle 0 y /\ Rle y 1 by rewrite hy; split; lra.
have h := pow_small y (Nat.mul 2 n) y01.
have p0 : Rle 0 (pow (Rminus 1 y) (Nat.mul 2 n)) by apply: pow_le; case: y01; lra.
split => //.
have e : INR (Nat.mul 2 n) = Rmult 2 (IZR int_max) .
  rewrite mult_INR (INR_IZR_INZ n) hn; reflexivity.
have ei : IZR int_max = 2147483647 by [].
move: h p0; rewrite e ei; move: (pow _ _) => P; rewrite hy => h p0; lra.
Qed.
Theorem C161_waiting_REFUTED : forall c x, consistent c -> exists cs w,
  PropWide.wide_session c case_ins (case_opt 1 false) (case_nav vzero) (case_opt 1 false) x cs = Some w /\
  List.Forall (fun k => match k with CallImu _ => True | _ => False end) cs /\
  (level_arm c = true -> forall a, (a < 3)%coq_nat -> Rle (variance w (arm_start c + a)) (Rmult (Rdiv 1 1000) (init_cov c (case_nav vzero) (case_opt 1 false) x (arm_start c + a)%N (arm_start c + a)%N))) /\
  (odo_sf c = true -> Rle (Rmult 9 (Rmult (x_odo_scale_std x) (x_odo_scale_std x))) (variance w (odo_start c))).
Proof.
move=> c x hc; have [n hn] : exists n, Z.of_nat n = int_max by exists (Z.to_nat int_max); apply: Z2Nat.id; rewrite /int_max; lia.
have hn' : (Z.of_nat n <= int_max)%Z by rewrite hn; exact: Z.le_refl.
have [w hw] := resting_defined c x n hn'.
have [p1 p2] := long_power n hn.
have hz : o_zupt (case_opt 1 false) = false by [].
have hnn : o_nhc (case_opt 1 false) = false \/ o_odo (case_opt 1 false) = true by left.
have hT : Rle 1 (Rmult (o_rate (case_opt 1 false)) 36000) by rewrite /=; lra.
have hy : Rdiv (Rdiv 1 100) 36000 = Rdiv 1 3600000 by field.
exists (resting n), w; split => //; split.
  by rewrite /resting; move: n {hn hn' hw p1 p2} => n; elim: n => [|n ih]; constructor.
split=> hf.
  move=> a ha; rewrite [init_cov _ _ _ _ _ _](cov_arm c _ _ x a hc hf ha).
  rewrite (C161_arm_REFUTED c _ _ _ _ x _ w a hz hnn (resting_calls n) hw ha hT hc hf) resting_samples /=.
  move: p1 p2; rewrite /=; move: (pow _ _) => P; lra.
rewrite (C161_odometer_REFUTED c _ _ _ _ x _ w hz hnn (resting_calls n) hw hT hc hf) resting_samples [o_rate _]/=.
have q : Rle 0 (Rmult (x_odo_scale_std x) (x_odo_scale_std x)) by exact: Rle_0_sqr.
move: p1 p2 q; move: (Rmult (x_odo_scale_std x) _) => v; rewrite hy; move: (pow (Rminus 1 _) _) => P p1 p2 q.
have -> : Rdiv (Rminus 1 (Rdiv 1 3600000)) (Rminus 1 (Rdiv (Rdiv 1 3600000) 2)) = Rdiv 7199998 7199999 by field; lra.
have i18 : Rlt 0 (Rinv (pow 10 18)) by apply: Rinv_0_lt_compat; apply: pow_lt; lra.
move: (Rinv _) i18 => u i18; nra.
Qed.
Print Assumptions C161_waiting_REFUTED.
Example C161_case : consistent {| gyro_sf := true; acce_sf := true; level_arm := true; odo_sf := true |}.
Proof. by apply/layout_iff. Qed.
