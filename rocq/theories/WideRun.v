(** C150, C151: histories of builds with optional states. *)
From Coq Require Import Reals ZArith List Lia.
From mathcomp Require Import all_ssreflect ssralg matrix.
From Verif Require Import RealMath EarthModel ConvertModel SmoothModel InsModel FusionBase Rfield KalmanModel FusionModel FusionSpec FusionProofs FusionFeed LayoutModel SelectModel WideModel WideNarrow.
From Verif Require PropSelect.
Import GRing.Theory.
Local Open Scope ring_scope.

Lemma lor_pos a b : (0 < a)%Z -> (0 <= b)%Z -> (0 < Z.lor a b)%Z.
Proof.
move=> ha hb; have h : (0 <= Z.lor a b)%Z by apply/Z.lor_nonneg; split; [lia|].
have n0 : Z.lor a b <> 0%Z by move/Z.lor_eq_0_iff => [e _]; lia.
lia.
Qed.
Lemma lor_pos2 a b : (0 <= a)%Z -> (0 < b)%Z -> (0 < Z.lor a b)%Z.
Proof. by move=> ha hb; rewrite Z.lor_comm; apply: lor_pos. Qed.

Section Undefined.
Variables (c : selection) (hf : feedback_defined c = false).
(** a correction that waits cannot be fed back *)
Lemma time_stuck s x : (0 < w_flag s)%Z -> wide_time c s x = None.
Proof.
move=> h; rewrite /wide_time /wide_take; have -> : Z.ltb 0 (w_flag s) = true by apply/Z.ltb_lt.
rewrite /wide_feed /=; have -> : Z.ltb 0 (max_iter (w_min s)) = true by apply/Z.ltb_lt; exact: max_iter_pos.
by rewrite /wide_feedback hf.
Qed.
Lemma gnss_flag s g t : wide_gnss c s g = Some t -> w_flag t = if gnss_check g then Z.lor (w_flag s) FLAG_POSITION else w_flag s.
Proof.
rewrite /wide_gnss; case: gnss_check; last by move=> [<-].
by rewrite /wide_measure_pos; case: vdr_defined => // /(bindP _ _ _)[u /(bindP _ _ _)[k _ [<-]] [<-]].
Qed.
Lemma velocity_flag s v t : wide_velocity c s v = Some t -> w_flag t = Z.lor (w_flag s) FLAG_VELOCITY.
Proof. by rewrite /wide_velocity; case: o_nhc => /(bindP _ _ _)[k _ [<-]]. Qed.
Lemma height_flag s h t : wide_height c s h = Some t -> w_flag t = w_flag s \/ w_flag t = Z.lor (w_flag s) FLAG_HEIGHT.
Proof.
rewrite /wide_height => /(bindP _ _ _)[u hu]; case: (Z.ltb int_max _) => // - [<-] /=; move: hu.
case: Z.ltb; last by move=> [<-]; left.
by case: vdr_defined => // /(bindP _ _ _)[k _ [<-]]; right.
Qed.
(** is there a sample in the history *)
Definition is_sample (k : call) : bool := if k is CallImu _ then true else false.
Lemma run_stuck cs : forall s, (0 < w_flag s)%Z -> existsb is_sample cs = true -> wide_run c s cs = None.
Proof.
elim: cs => [|k r ih] s h //=; case: k => [x|g|v|y] /= hr; first by rewrite time_stuck.
- case E: (wide_gnss c s g) => [t|] //=; apply: ih => //; rewrite (gnss_flag _ _ _ E); case: ifP => // _; exact: lor_pos.
- case E: (wide_velocity c s v) => [t|] //=; apply: ih => //; rewrite (velocity_flag _ _ _ E); exact: lor_pos.
case E: (wide_height c s y) => [t|] //=; apply: ih => //; case: (height_flag _ _ _ E) => -> //; exact: lor_pos.
Qed.
(** the flag is never negative *)
Lemma zupt_flag s t : wide_zupt_step c s = Some t -> w_flag t = w_flag s \/ w_flag t = Z.lor (w_flag s) FLAG_VELOCITY.
Proof.
rewrite /wide_zupt_step; case: ifP => _; last by move=> [<-]; left.
case: is_static; last by move=> [<-]; left.
move=> /(bindP _ _ _)[u hu [<-]] /=; right; move: hu; rewrite /wide_zero_velocity => /(bindP _ _ _)[k _].
by case: o_zupta => [|[<-]] //; case: is_zero => // /(bindP _ _ _)[k2 _ [<-]].
Qed.
Lemma nhc_flag s t : wide_nhc_step c s = Some t ->
  w_flag t = if [&& Z.eqb (Z.modulo (w_idx s) 32) 1, o_nhc (w_opt s) & ~~ o_odo (w_opt s)] then Z.lor (w_flag s) FLAG_VELOCITY else w_flag s.
Proof.
rewrite /wide_nhc_step; case: ifP => _; last by move=> [<-].
by move=> /(bindP _ _ _)[u hu [<-]] /=; move: hu; rewrite /wide_nhc => /(bindP _ _ _)[k _ [<-]].
Qed.
Lemma zupt_same s t : wide_zupt_step c s = Some t -> w_idx t = w_idx s /\ w_opt t = w_opt s.
Proof.
rewrite /wide_zupt_step; case: ifP => _; last by move=> [<-].
case: is_static; last by move=> [<-].
move=> /(bindP _ _ _)[u hu [<-]] /=; move: hu; rewrite /wide_zero_velocity => /(bindP _ _ _)[k _].
by case: o_zupta => [|[<-]] //; case: is_zero => // /(bindP _ _ _)[k2 _ [<-]].
Qed.
Lemma feed_same s t : wide_feed c (wide_take c s) = Some t -> ((0 <= w_flag s)%Z -> w_flag t = 0%Z) /\ w_idx t = w_idx s /\ w_opt t = w_opt s.
Proof.
rewrite /wide_take; case: Z.ltb_spec0 => h; rewrite /wide_feed /=.
  by case: Z.ltb => [/(bindP _ _ _)[i _ [<-]]|[<-]].
by case: Z.ltb => [/(bindP _ _ _)[i _ [<-]]|[<-]] /=; split => // h0; lia.
Qed.
Lemma time_flag s x t : wide_time c s x = Some t -> (0 <= w_flag s)%Z -> (0 <= w_flag t)%Z /\
  ([&& Z.eqb (Z.modulo (u32 (Z.add (w_idx s) 1)) 32) 1, o_nhc (w_opt s) & ~~ o_odo (w_opt s)] -> (0 < w_flag t)%Z).
Proof.
rewrite /wide_time => /(bindP _ _ _)[s1 h1 /(bindP _ _ _)[s2 h2 /(bindP _ _ _)[s3 h3 /(bindP _ _ _)[s4 h4 [<-]]]]] /= h.
have [/(_ h) e1 [e2 e3]] := feed_same _ _ h1.
have [f1 [f2 f3]] : w_flag s2 = 0%Z /\ w_idx s2 = u32 (Z.add (w_idx s) 1) /\ w_opt s2 = w_opt s.
  by move: h2; rewrite /wide_propagate => /(bindP _ _ _)[sm _ /(bindP _ _ _)[i _ /(bindP _ _ _)[phi _ [<-]]]] /=; rewrite e1 e2 e3.
have n3 : (0 <= w_flag s3)%Z by case: (zupt_flag _ _ h3) => ->; rewrite f1.
have [g1 g2] := zupt_same _ _ h3.
rewrite (nhc_flag _ _ h4) g1 g2 f2 f3; case: ifP => _; last by split.
have := lor_pos2 (w_flag s3) FLAG_VELOCITY n3 erefl. by split; [lia|].
Qed.
Lemma do_flag s k t : wide_do c s k = Some t -> (0 <= w_flag s)%Z -> (0 <= w_flag t)%Z.
Proof.
case: k => [x|g|v|y] /= E h; first by have [] := time_flag _ _ _ E h.
- rewrite (gnss_flag _ _ _ E); case: ifP => // _; have := lor_pos2 _ FLAG_POSITION h erefl; lia.
- rewrite (velocity_flag _ _ _ E); have := lor_pos2 _ FLAG_VELOCITY h erefl; lia.
case: (height_flag _ _ _ E) => -> //; have := lor_pos2 _ FLAG_HEIGHT h erefl; lia.
Qed.
(** an accepted fix or a speed, and later a sample *)
Definition corrects (k : call) : bool := match k with CallGnss g => fix_mode (g_mode g) | CallVel _ => true | _ => false end.
Lemma correction_stuck cs1 : forall s k cs2, (0 <= w_flag s)%Z -> corrects k -> existsb is_sample cs2 = true -> wide_run c s (cs1 ++ k :: cs2)%list = None.
Proof.
elim: cs1 => [|j r ih] s k cs2 h hk hs /=.
  case E: (wide_do c s k) => [t|] //=; apply: run_stuck => //.
  case: k hk E => [//|g|v|//] /= hg E; last by rewrite (velocity_flag _ _ _ E); apply: lor_pos2.
  by rewrite (gnss_flag _ _ _ E) mode_rule hg; apply: lor_pos2.
case E: (wide_do c s j) => [t|] //=; apply: ih => //; exact: do_flag E h.
Qed.
Lemma nhc_stuck s x y r : (0 <= w_flag s)%Z -> w_idx s = 0%Z -> o_nhc (w_opt s) -> ~~ o_odo (w_opt s) -> wide_run c s (CallImu x :: CallImu y :: r) = None.
Proof.
move=> h hi hn ho /=; case E: (wide_time c s x) => [t|] //=; rewrite time_stuck //.
by have [_] := time_flag _ _ _ E h; apply; rewrite hi hn ho.
Qed.
End Undefined.

(** ** without a correction *)
Section Inertial.
Variable c : selection.
(** samples and refused fixes *)
Definition quiet (k : call) : bool := match k with CallImu _ => true | CallGnss g => ~~ fix_mode (g_mode g) | _ => false end.
Definition same (w : wide c) (f : fusion) : Prop :=
  [/\ w_ins w = f_ins f, w_opt w = f_opt f, w_smooth w = f_smooth f, w_idx w = f_idx f &
     (w_flag w = 0 /\ w_iter w = 0 /\ f_flag f = 0 /\ f_iter f = 0)%Z].
Definition alike (a : option (wide c)) (b : option fusion) : Prop :=
  match a, b with Some w, Some f => same w f | None, None => True | _, _ => False end.
Lemma quiet_alike w f k : same w f -> unconstrained (f_opt f) -> quiet k -> alike (wide_do c w k) (do_call f k).
Proof.
move=> [h1 h2 h3 h4 [h5 [h6 [h7 h8]]]] [uz un].
case: k => [x|g|v|y] //= hk; last first.
  by rewrite /wide_gnss /gnss_update mode_rule (negbTE hk) h1 /=; split.
rewrite /wide_time /time_update /wide_take /take_estimate h5 h7 /= /wide_feed /feed h6 h8 /=.
rewrite /wide_propagate /propagate h1 h2 h3 /=; case: (smooth_update _ _) => //= sm; case: (forward _ _) => //= i.
rewrite /wide_transfer /transfer; case: transfer_defined => //=.
rewrite /wide_zupt_step /zupt_step /= h2 uz !andbF /= /wide_nhc_step /nhc_step /= h2 h4.
have -> : [&& Z.eqb (Z.modulo (u32 (Z.add (f_idx f) 1)) 32) 1, o_nhc (f_opt f) & ~~ o_odo (f_opt f)] = false.
  by case: un => ->; rewrite ?andbF //= andbF.
by split.
Qed.
Lemma quiet_opt f k g : do_call f k = Some g -> quiet k -> f_opt g = f_opt f.
Proof.
case: k => [x|y|v|y] //= h hk; last by move: h; rewrite /gnss_update mode_rule (negbTE hk) => - [<-].
by have [_ []] := time_update_counts _ _ _ h.
Qed.
Lemma inertial_alike cs : forall w f, same w f -> unconstrained (f_opt f) -> forallb quiet cs = true ->
  option_map (@w_ins c) (wide_run c w cs) = option_map f_ins (run_calls f cs).
Proof.
elim: cs => [|k r ih] w f h u /=; first by case: h => ->.
move=> /andP[hk hr]; have := quiet_alike w f k h u hk; case: (wide_do c w k) => [w1|]; case E: (do_call f k) => [f1|] //= a.
by apply: ih => //; rewrite (quiet_opt _ _ _ E hk).
Qed.
Lemma initialize_alike i o nav o' m : alike (wide_initialize c (wide_new c i o) nav o' m) (initialize (fusion_new i o) nav o').
Proof. by rewrite /wide_initialize /initialize; case: ifP. Qed.
End Inertial.
