(** C160, C161: the variances of the biases and of the optional states over a history without corrections. *)
From Coq Require Import Reals ZArith List Lia Lra Psatz.
From mathcomp Require Import all_ssreflect ssralg matrix.
From Verif Require Import RealMath EarthModel ConvertModel SmoothModel InsModel InsProofs FusionBase Rfield KalmanModel FusionModel FusionSpec FusionProofs
  FusionFeed ConvertSpec InsRest InsSpec InsRest2 FusionRest LayoutModel LayoutProofs SelectModel WideModel WideNarrow WideRun.
From Verif Require Import PropSelect.
Import GRing.Theory.
Local Open Scope ring_scope.

Lemma forward_dt s x t : forward s x = Some t -> s_dt t = s_dt s.
Proof.
rewrite /forward => /(bindP _ _ _)[u + [<-]] /=; rewrite /mechanise => /(bindP _ _ _)[s1 h1 /(bindP _ _ _)[s2 h2 /(bindP _ _ _)[s3 h3 [<-]]]] /=.
have [_ <-] := extrapolate_nav _ _ h1.
have -> : s_dt s1 = s_dt s2.
  by move: h2; rewrite /velocity_update; case: Req_EM_T => // _ /(bindP _ _ _)[w _ [<-]].
by move: h3; rewrite /position_update => /(bindP _ _ _)[l _ /(bindP _ _ _)[v _ [<-]]].
Qed.

(** the entry of the diagonal *)
Definition variance {c} (w : wide c) (k : nat) : R := if insub k is Some i then kP (w_kf w) i i else 0.

Section Step.
Variables (c : selection).
Notation n := (STATE_CNT c).
(** one sample, no corrections *)
Lemma quiet_time (w t : wide c) x : w_flag w = Z0 -> w_iter w = Z0 -> unconstrained (w_opt w) -> wide_time c w x = Some t ->
  exists i, forward (w_ins w) x = Some i /\ w_ins t = ins_nav i (s_nav (w_ins t)) /\ w_flag t = Z0 /\ w_iter t = Z0 /\ w_opt t = w_opt w /\ w_Q0 t = w_Q0 w /\
    kP (w_kf t) = of_table (transition c i (w_opt w)) *m kP (w_kf w) *m (of_table (transition c i (w_opt w)))^T +
      wide_noise c (of_table (transition c i (w_opt w))) (w_Q0 w) (s_dt i).
Proof.
move=> hf hi [uz un]; rewrite /wide_time /wide_take hf /= /wide_feed hi /= => /(bindP _ _ _)[s2 h2 /(bindP _ _ _)[s3 h3 /(bindP _ _ _)[s4 h4 [<-]]]] /=.
move: h2; rewrite /wide_propagate => /(bindP _ _ _)[sm _ /(bindP _ _ _)[i fi /(bindP _ _ _)[phi + [e2]]]].
rewrite /wide_transfer; case: transfer_defined => // - [ephi].
have e3 : s3 = s2 by move: h3; rewrite /wide_zupt_step -e2 /= uz andbF /= => - [<-].
have e4 : s4 = wset_ins c s2 (sensors_clear i SENSOR_NHC).
  move: h4; rewrite e3 /wide_nhc_step -e2 /=.
  have -> : [&& Z.eqb (Z.modulo (u32 (Z.add (w_idx w) 1)) 32) 1, o_nhc (w_opt w) & ~~ o_odo (w_opt w)] = false by case: un => ->; rewrite ?andbF //= andbF.
  by case=> <-.
exists i; split=> //; rewrite e4 -e2 /= ephi; split => //.
Qed.
(** a state whose row of the transition matrix has the diagonal entry only, and whose noise is its own *)
Definition alone_row (i : ins) (o : option_t) (r : nat) (f : R) : Prop := forall j, (j < n)%N -> transition c i o r j = if r == j then f else 0.
Definition alone_noise (q : 'M[R]_n) (r : nat) (v : R) : Prop := forall (a b : 'I_n), (a = r :> nat \/ b = r :> nat) -> q a b = if a == b then v else 0.
Lemma row_alone (phi : 'M[R]_n) (r : 'I_n) f (m : 'M[R]_n) j : (forall k, phi r k = if r == k then f else 0) -> (phi *m m) r j = f * m r j.
Proof.
move=> h; rewrite mxE (bigD1 r) //= h eqxx big1 ?addr0 // => k hk; by rewrite h eq_sym (negbTE hk) mul0r.
Qed.
Lemma col_alone (phi : 'M[R]_n) (r : 'I_n) f (m : 'M[R]_n) j : (forall k, phi r k = if r == k then f else 0) -> (m *m phi^T) j r = m j r * f.
Proof.
move=> h; rewrite mxE (bigD1 r) //= mxE h eqxx big1 ?addr0 // => k hk; by rewrite mxE h eq_sym (negbTE hk) mulr0.
Qed.
Lemma variance_step (phi p q : 'M[R]_n) (r : 'I_n) f v dt : (forall k, phi r k = if r == k then f else 0) -> q r r = v ->
  (phi *m p *m phi^T + wide_noise c phi q dt) r r = Rplus (Rmult (Rmult f f) (p r r)) (Rmult dt (Rmult f v)).
Proof.
move=> h hq; rewrite mxE (col_alone _ _ _ _ _ h) (row_alone _ _ _ _ _ h) /wide_noise.
rewrite !mxE -/(_ *m _) .
have e1 : \sum_j phi r j * q j r = f * v by rewrite (bigD1 r) //= h eqxx hq big1 ?addr0 // => k hk; rewrite h eq_sym (negbTE hk) mul0r.
have e2 : \sum_j q r j * phi^T j r = v * f by rewrite (bigD1 r) //= mxE h eqxx hq big1 ?addr0 // => k hk; rewrite mxE h eq_sym (negbTE hk) mulr0.
rewrite e1 e2.
change (Rplus (Rmult (Rmult f (p r r)) f) (Rmult dt (Rmult (Rdiv 1 2) (Rplus (Rmult f v) (Rmult v f)))) = Rplus (Rmult (Rmult f f) (p r r)) (Rmult dt (Rmult f v))).
field.
Qed.
(** the number of samples *)
Fixpoint samples (cs : list call) : nat := match cs with nil => O | CallImu _ :: r => S (samples r) | _ :: r => samples r end.
(** what is left after m steps *)
Lemma quiet_variance (r : nat) (dt f v s : R) cs : forall w t : wide c, (r < n)%N ->
  w_flag w = Z0 -> w_iter w = Z0 -> unconstrained (w_opt w) -> s_dt (w_ins w) = dt ->
  (forall i, s_dt i = dt -> alone_row i (w_opt w) r f) -> (forall a : 'I_n, a = r :> nat -> w_Q0 w a a = v) ->
  Rplus (Rmult (Rmult f f) s) (Rmult dt (Rmult f v)) = s ->
  forallb quiet cs -> wide_run c w cs = Some t ->
  variance t r = Rplus s (Rmult (pow (Rmult f f) (samples cs)) (Rminus (variance w r) s)).
Proof.
move=> w t hr; elim: cs w => [|k l ih] w hf hi hu hdt hrow hq hs /=.
  move=> _ [<-]; rewrite Rmult_1_l; change (variance w r = Rplus s (Rminus (variance w r) s)); ring.
move=> /andP[hk hl]; case E: (wide_do c w k) => [u|] //= hrun.
case: k hk E => [x|g|y|y] //= hk E; last first.
  move: E; rewrite /wide_gnss mode_rule (negbTE hk) => - [eu]; move: hrun; rewrite -eu => hrun.
  by apply: (ih _ _ _ _ _ _ _ _ _ hrun).
have [i [hi1 [hi2 [hi3 [hi4 [hi5 [hi6 hP]]]]]]] := quiet_time _ _ _ hf hi hu E.
have hdi : s_dt i = dt by rewrite (forward_dt _ _ _ hi1).
have hd' : s_dt (w_ins u) = dt by rewrite hi2.
have hu' : unconstrained (w_opt u) by rewrite hi5.
have hrow' : forall i, s_dt i = dt -> alone_row i (w_opt u) r f by rewrite hi5.
have hq' : forall a : 'I_n, a = r :> nat -> w_Q0 u a a = v by rewrite hi6.
rewrite (ih _ hi3 hi4 hu' hd' hrow' hq' hs hl hrun).
have hv : variance u r = Rplus (Rmult (Rmult f f) (variance w r)) (Rmult dt (Rmult f v)).
  rewrite /variance insubT hP -hdi; apply: variance_step; last by apply: hq.
  move=> k; rewrite mxE /=; have := hrow i hdi k (ltn_ord k); rewrite -(inj_eq val_inj); exact.
rewrite hv.
have -> : Rminus (Rplus (Rmult (Rmult f f) (variance w r)) (Rmult dt (Rmult f v))) s = Rmult (Rmult f f) (Rminus (variance w r) s).
  rewrite -{1}hs; change (Rminus (Rplus (Rmult (Rmult f f) (variance w r)) (Rmult dt (Rmult f v))) (Rplus (Rmult (Rmult f f) s) (Rmult dt (Rmult f v))) = Rmult (Rmult f f) (Rminus (variance w r) s)); ring.
change (Rplus s (Rmult (pow (Rmult f f) (samples l)) (Rmult (Rmult f f) (Rminus (variance w r) s))) = Rplus s (Rmult (Rmult (Rmult f f) (pow (Rmult f f) (samples l))) (Rminus (variance w r) s))); ring.
Qed.
End Step.

(** ** a resting unit without corrections: every number of samples that the counters can hold *)
Section Rest.
Variable c : selection.
Variables (lat lon h : R) (q : quat).
Lemma wide_rest_run (dt : R) : qnorm2 q = 1 -> dt <> IZR 0 -> place_ok lat lon h ->
  let a := mvec (mtrans (quaternion_to_dcm q)) (balanced lat h dt) in
  let g := rest_gyro (quaternion_to_dcm q) lat dt in
  forall ts (w : wide c), at_rest (w_ins w) lat lon h dt q a g -> w_flag w = Z0 -> w_iter w = Z0 -> unconstrained (w_opt w) ->
  o_gt_corr (w_opt w) <> IZR 0 -> o_at_corr (w_opt w) <> IZR 0 ->
  (up_cnt (w_smooth w) + Z.of_nat (length ts) <= int_max)%Z -> (static_cnt (w_smooth w) + Z.of_nat (length ts) <= int_max)%Z -> (0 <= up_cnt (w_smooth w))%Z ->
  exists t, wide_run c w (List.map (fun t => CallImu (Imu t g a)) ts) = Some t.
Proof.
move=> Hq Hdt P a g; elim=> [|ti ts ih] w hr hf hi hu hg ha hc1 hc2 hc0; first by exists w.
have hl : (Z.of_nat (length (ti :: ts)) = Z.of_nat (length ts) + 1)%Z by rewrite /=; lia.
have [sm hsm] : exists sm, smooth_update (w_smooth w) (Imu ti g a) = Some sm.
  rewrite /smooth_update. cbv zeta.
  have -> : Z.ltb int_max (up_cnt (w_smooth w) + 1) = false by apply/Z.ltb_ge; lia.
  case: Rlt_dec => _; first by eexists.
  have -> : Z.ltb int_max (static_cnt (w_smooth w) + 1) = false by apply/Z.ltb_ge; lia.
  by eexists.
have [i [F [I _]]] := sample_rest _ _ _ _ _ _ ti Hq Hdt P hr.
have [k1 k2] := smooth_counts _ _ _ hsm.
case: (hu) => uz un.
suff [u [hrun [h1 [h2 [h3 [h4 h5]]]]]] : exists u, wide_time c w (Imu ti g a) = Some u /\ at_rest (w_ins u) lat lon h dt q a g /\ w_flag u = Z0 /\ w_iter u = Z0 /\ w_opt u = w_opt w /\ w_smooth u = sm.
  rewrite [wide_run _ _ _]/=. rewrite hrun /=; apply: ih => //; rewrite ?h4 ?h5 //; by [|case: k2 => ->; lia|lia].
rewrite /wide_time /wide_take hf /= /wide_feed hi /= /wide_propagate hsm /= F /=.
have -> : wide_transfer c i (w_opt w) = Some (of_table (transition c i (w_opt w))).
  rewrite /wide_transfer (transfer_place i lat lon h) //; by move: I => [[]].
rewrite /= /wide_zupt_step /= uz andbF /= /wide_nhc_step /=.
have -> : [&& Z.eqb (Z.modulo (u32 (Z.add (w_idx w) 1)) 32) 1, o_nhc (w_opt w) & ~~ o_odo (w_opt w)] = false by case: un => ->; rewrite ?andbF //= andbF.
eexists; split; first reflexivity. split => //=.
Qed.
End Rest.
