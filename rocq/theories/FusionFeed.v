(** Feeding estimates back. *)
From Coq Require Import Reals ZArith List Lia Lra.
From mathcomp Require Import all_ssreflect ssralg matrix.
From Verif Require Import RealMath EarthModel ConvertModel SmoothModel InsModel InsProofs FusionBase Rfield KalmanModel KalmanSpec KalmanProofs FusionModel FusionSpec FusionProofs.
Import GRing.Theory.
Local Open Scope ring_scope.

Lemma forward_bias i x j : forward i x = Some j -> n_gb (s_nav j) = n_gb (s_nav i) /\ n_ab (s_nav j) = n_ab (s_nav i).
Proof.
rewrite /forward /mechanise => /(bindP _ _ _)[t /(bindP _ _ _)[s1 h1 /(bindP _ _ _)[s2 h2 /(bindP _ _ _)[s3 h3 [<-]]]] [<-]] /=.
have [-> ->] : n_gb (s_nav s3) = n_gb (s_nav s2) /\ n_ab (s_nav s3) = n_ab (s_nav s2).
  by move: h3; rewrite /position_update => /(bindP _ _ _)[ll _ /(bindP _ _ _)[w _ [<-]]].
have [-> ->] : n_gb (s_nav s2) = n_gb (s_nav s1) /\ n_ab (s_nav s2) = n_ab (s_nav s1).
  move: h2; rewrite /velocity_update; case: Req_EM_T => // _ /(bindP _ _ _)[w _ [<-]]. by [].
move: h1; rewrite /extrapolate => /(bindP _ _ _)[w _ /(bindP _ _ _)[ll _ /(bindP _ _ _)[w2 _ [<-]]]]. by [].
Qed.
Lemma feedback_bias i x j : feedback i x = Some j ->
  n_gb (s_nav j) = vadd (n_gb (s_nav i)) (x_gb x) /\ n_ab (s_nav j) = vadd (n_ab (s_nav i)) (x_ab x).
Proof. rewrite /feedback; case: ifP => // _ /(bindP _ _ _)[ll _ [<-]]. by []. Qed.

(** no measurement during an epoch: the constraint updates are switched off *)
Definition unconstrained (o : option_t) : Prop := o_zupt o = false /\ (o_nhc o = false \/ o_odo o = true).

Lemma quiet_epoch s x t : unconstrained (f_opt s) -> time_update s x = Some t ->
  let a := take_estimate s in
  [/\ f_opt t = f_opt s, f_min t = f_min s, f_flag t = f_flag a, f_Xd t = f_Xd a &
      f_iter t = if Z.ltb 0 (f_iter a) then Z.sub (f_iter a) 1 else f_iter a] /\
  (n_gb (s_nav (f_ins t)), n_ab (s_nav (f_ins t))) =
    if Z.ltb 0 (f_iter a) then (vadd (n_gb (s_nav (f_ins s))) (part (share a) 3), vadd (n_ab (s_nav (f_ins s))) (part (share a) 4))
    else (n_gb (s_nav (f_ins s)), n_ab (s_nav (f_ins s))).
Proof.
move=> [q1 q2] h a. have [_ [ho _]] := time_update_counts _ _ _ h.
move: h => /time_update_split[s1 [s2 [s3 [s4 [h1 h2 h3 h4 E]]]]].
have [[t1 t2 t3 t4 t5] [ti _ _]] := take_spec s. rewrite -/a in t1 t2 t3 t4 t5 ti.
have [[a1 a2 a3 a4 a5] [_ a6 _ a7 _]] := feed_spec _ _ h1.
have [sm [i [phi [b1 b2 b3 b4]]]] := propagate_spec _ _ _ h2.
have z0 : zupt_due s2 = false by rewrite /zupt_due b4 /= a4 t3 q1 andbF.
have n0 : nhc_due s3 = false.
  have [[_ [c1 _]] _] := zupt_step_spec _ _ h3.
  rewrite /nhc_due c1 b4 /= a4 t3. by case: q2 => ->; rewrite ?andbF.
have [[_ [c1 [cX [ci [c2 [c3 [_ [cm _]]]]]]]] [cn c4]] := zupt_step_spec _ _ h3.
have [[_ [d1 [dX [di [d2 [d3 [_ [dm _]]]]]]]] [dn d4]] := nhc_step_spec _ _ h4.
have [k3 f3] := c4 z0. have [k4 f4] := d4 n0. have [g1 g2] := forward_bias _ _ _ b2.
have fi : f_iter s1 = (if Z.ltb 0 (f_iter a) then Z.sub (f_iter a) 1 else f_iter a).
  move: h1; rewrite /feed; case: ifP => _; last by case=> <-. by move=> /(bindP _ _ _)[j _ [<-]].
split; [split|].
- exact: ho.
- by rewrite E /= dm cm b4 /= a7 t5.
- by rewrite E /= f4 f3 b4 /= a2.
- by rewrite E /= dX cX b4 /= a6.
- by rewrite E /= di ci b4 /= fi.
have -> : n_gb (s_nav (f_ins t)) = n_gb (s_nav (f_ins s1)).
  rewrite E /= dn n0 /= cn b4 /= -g1. by do ?[case: ifP => _].
have -> : n_ab (s_nav (f_ins t)) = n_ab (s_nav (f_ins s1)).
  rewrite E /= dn n0 /= cn b4 /= -g2. by do ?[case: ifP => _].
move: h1; rewrite /feed; case: ifP => _; last by case=> <-; rewrite ti.
by move=> /(bindP _ _ _)[j /feedback_bias[B1 B2] [<-]] /=; rewrite B1 B2 ti.
Qed.


(** the parts already fed back after j epochs *)
Definition fed (x : vec) (j n : Z) : vec := vscale (Rdiv (IZR (Z.min j n)) (IZR n)) x.
Lemma fed_next (g x : vec) j n : (0 <= j < n)%Z -> vadd (vadd g (fed x j n)) (vscale (Rinv (IZR n)) x) = vadd g (fed x (j + 1) n).
Proof.
move=> h. rewrite /fed (Z.min_l j n) ?(Z.min_l (j + 1) n); try lia. rewrite plus_IZR.
have hn : IZR n <> IZR 0 by apply: not_0_IZR; lia.
apply: vec_ext => /=; field; exact: hn.
Qed.
Lemma fed_done x j n : (n <= j)%Z -> fed x j n = fed x n n.
Proof. move=> h; by rewrite /fed Z.min_r // Z.min_id. Qed.
Lemma part_scale a x b : part (a *: x) b = vscale a (part x b).
Proof. by rewrite /part !mxE. Qed.
Lemma share_part s b : part (share s) b = vscale (Rinv (IZR (max_iter (f_min s)))) (part (f_Xd s) b).
Proof. exact: part_scale. Qed.
Lemma max_iter_pos m : (0 < max_iter m)%Z.
Proof. rewrite /max_iter; by case: ifP. Qed.

Lemma fed_history xs : forall s t n j gb0 ab0, unconstrained (f_opt s) -> f_flag s = 0%Z -> n = max_iter (f_min s) ->
  (0 <= j)%Z -> f_iter s = (n - Z.min j n)%Z ->
  n_gb (s_nav (f_ins s)) = vadd gb0 (fed (part (f_Xd s) 3) j n) ->
  n_ab (s_nav (f_ins s)) = vadd ab0 (fed (part (f_Xd s) 4) j n) ->
  run_calls s (List.map CallImu xs) = Some t ->
  n_gb (s_nav (f_ins t)) = vadd gb0 (fed (part (f_Xd s) 3) (j + Z.of_nat (length xs)) n) /\
  n_ab (s_nav (f_ins t)) = vadd ab0 (fed (part (f_Xd s) 4) (j + Z.of_nat (length xs)) n).
Proof.
elim: xs => [|x xs IH] s t n j gb0 ab0 q hf hn hj hi hg ha /=; first by case=> <-; rewrite Z.add_0_r.
move=> /(bindP _ _ _)[u hu hrun]. have npos := max_iter_pos (f_min s).
have [[u1 u2 u3 u4 u5] u6] := quiet_epoch _ _ _ q hu.
have ea : take_estimate s = s by rewrite /take_estimate hf. rewrite ea in u3 u4 u5 u6.
have -> : (j + Z.pos (Pos.of_succ_nat (length xs)) = (j + 1) + Z.of_nat (length xs))%Z by lia.
rewrite -u4. apply: (IH u t n (j + 1)%Z gb0 ab0) => //.
- by rewrite u1.
- by rewrite u3.
- by rewrite u2.
- lia.
- rewrite u5 hi. case: ifP => [/Z.ltb_lt|/Z.ltb_ge]; lia.
- rewrite u4. move: u6; rewrite hi; case: ifP => [/Z.ltb_lt|/Z.ltb_ge] L [G A].
  + rewrite G hg share_part -hn. apply: fed_next; lia.
  + rewrite G hg; congr (vadd _ _). rewrite (fed_done _ j) 1?(fed_done _ (j + 1)) //; lia.
- rewrite u4. move: u6; rewrite hi; case: ifP => [/Z.ltb_lt|/Z.ltb_ge] L [G A].
  + rewrite A ha share_part -hn. apply: fed_next; lia.
  + rewrite A ha; congr (vadd _ _). rewrite (fed_done _ j) 1?(fed_done _ (j + 1)) //; lia.
Qed.

(** from the moment of the measurement *)
Lemma fed_from_measurement xs s t : unconstrained (f_opt s) -> (0 < f_flag s)%Z -> xs <> nil ->
  run_calls s (List.map CallImu xs) = Some t ->
  let n := max_iter (f_min s) in let x := kX (f_kf s) in let j := Z.of_nat (length xs) in
  n_gb (s_nav (f_ins t)) = vadd (n_gb (s_nav (f_ins s))) (fed (part x 3) j n) /\
  n_ab (s_nav (f_ins t)) = vadd (n_ab (s_nav (f_ins s))) (fed (part x 4) j n).
Proof.
case: xs => [|y xs] q hf // _ /= /(bindP _ _ _)[u hu hrun].
have npos := max_iter_pos (f_min s).
have [[u1 u2 u3 u4 u5] u6] := quiet_epoch _ _ _ q hu.
have hb : Z.ltb 0 (f_flag s) = true by apply/Z.ltb_lt.
have e1 : f_Xd (take_estimate s) = kX (f_kf s) by rewrite /take_estimate hb.
have e2 : f_flag (take_estimate s) = 0%Z by rewrite /take_estimate hb.
have e3 : f_iter (take_estimate s) = max_iter (f_min s) by rewrite /take_estimate hb.
have e4 : f_min (take_estimate s) = f_min s by rewrite /take_estimate hb.
rewrite e1 in u4; rewrite e2 in u3; rewrite e3 in u5 u6.
have L : Z.ltb 0 (max_iter (f_min s)) = true by apply/Z.ltb_lt.
rewrite L in u5 u6. case: u6 => G A. rewrite !share_part e1 e4 in G A.
have F v : vscale (Rinv (IZR (max_iter (f_min s)))) v = fed v 1 (max_iter (f_min s)).
  rewrite /fed Z.min_l; last lia. by rewrite /Rdiv Rmult_1_l.
rewrite !F in G A.
have -> : (Z.pos (Pos.of_succ_nat (length xs)) = 1 + Z.of_nat (length xs))%Z by lia.
rewrite -u4. apply: (fed_history xs u t _ 1%Z) => //; rewrite ?u4 ?u1 ?u2 ?u3 //.
rewrite u5 Z.min_l //; lia.
Qed.
Lemma fed_all x n : (0 < n)%Z -> fed x n n = x.
Proof.
move=> h; rewrite /fed Z.min_id. have hn : IZR n <> IZR 0 by apply: not_0_IZR; lia.
case: x => a b c; apply: vec_ext => /=; field; exact: hn.
Qed.

Lemma lor_flag a b : (0 <= a)%Z -> (0 < b)%Z -> (0 < Z.lor a b)%Z.
Proof.
move=> h hb. have h1 : (0 <= Z.lor a b)%Z by apply/Z.lor_nonneg; split => //; lia.
have : Z.lor a b <> 0%Z by move=> /Z.lor_eq_0_iff[_ E]; lia. lia.
Qed.
Lemma measured_flag s c u : match c with CallGnss g => gnss_check g = true | CallVel _ => True | _ => False end ->
  (0 <= f_flag s)%Z -> do_call s c = Some u -> (0 < f_flag u)%Z.
Proof.
case: c => // [g|v] h hf /=.
  rewrite gnss_accepted // => /(bindP _ _ _)[k _ [<-]]. exact: lor_flag.
rewrite /velocity_update_f; case: o_nhc => /(bindP _ _ _)[k _ [<-]]; exact: lor_flag.
Qed.
Lemma fed_after_call s c u xs t : unconstrained (f_opt u) ->
  match c with CallGnss g => gnss_check g = true | CallVel _ => True | _ => False end -> (0 <= f_flag s)%Z ->
  do_call s c = Some u -> xs <> nil -> run_calls u (List.map CallImu xs) = Some t ->
  let n := max_iter (f_min u) in let x := kX (f_kf u) in let j := Z.of_nat (length xs) in
  (n_gb (s_nav (f_ins t)) = vadd (n_gb (s_nav (f_ins u))) (fed (part x 3) j n) /\
   n_ab (s_nav (f_ins t)) = vadd (n_ab (s_nav (f_ins u))) (fed (part x 4) j n)) /\
  ((n <= j)%Z ->
   n_gb (s_nav (f_ins t)) = vadd (n_gb (s_nav (f_ins u))) (part x 3) /\
   n_ab (s_nav (f_ins t)) = vadd (n_ab (s_nav (f_ins u))) (part x 4)).
Proof.
move=> hq hc hf hd hx hr n x j. have hp := measured_flag _ _ _ hc hf hd.
have [G A] := fed_from_measurement _ _ _ hq hp hx hr. split => // L.
rewrite G A !(fed_done _ _ _ L) !fed_all //; exact: max_iter_pos.
Qed.
Lemma first_part s : (0 < f_flag s)%Z ->
  feed (take_estimate s) =
    bind (feedback (f_ins s) (err_of (Rinv (IZR (max_iter (f_min s))) *: kX (f_kf s)))) (fun i =>
      Some (set_flag (set_kf (set_pending (set_ins s i) (kX (f_kf s)) (Z.sub (max_iter (f_min s)) 1)) (kf_reset (f_kf s))) 0)).
Proof.
move=> h. rewrite /take_estimate. have -> : Z.ltb 0 (f_flag s) = true by apply/Z.ltb_lt.
rewrite /feed. cbn [f_iter set_flag set_kf set_pending]. have -> : Z.ltb 0 (max_iter (f_min s)) = true by apply/Z.ltb_lt; exact: max_iter_pos.
by [].
Qed.

(** before the first fix or velocity *)
Lemma time_update_min s x t : time_update s x = Some t -> f_min t = f_min s.
Proof.
move=> /time_update_split[s1 [s2 [s3 [s4 [h1 h2 h3 h4 ->]]]]] /=.
have [[_ [_ [_ [_ [_ [_ [_ [dm _]]]]]]]] _] := nhc_step_spec _ _ h4.
have [[_ [_ [_ [_ [_ [_ [_ [cm _]]]]]]]] _] := zupt_step_spec _ _ h3.
have [sm [i [phi [_ _ _ b4]]]] := propagate_spec _ _ _ h2. have [_ [_ _ _ am _]] := feed_spec _ _ h1.
have [[_ _ _ _ tm] _] := take_spec s. by rewrite dm cm b4 /= am tm.
Qed.
Lemma thousand_before_fix i0 o0 nav o s cs t : initialize (fusion_new i0 o0) nav o = Some s ->
  Forall (fun c => match c with CallGnss _ | CallVel _ => False | _ => True end) cs -> run_calls s cs = Some t ->
  max_iter (f_min t) = 1000%Z.
Proof.
move=> hi hc hr. have E : f_min s = uint32_max by move: hi; rewrite /initialize; case: ifP => // _ [<-].
suff -> : f_min t = f_min s by rewrite E.
move: s t hr {hi E}. elim: hc => [|c l h _ IH] s t /=; first by case=> <-.
move=> /(bindP _ _ _)[u hu /IH ->] {IH}. move: h hu; case: c => //= [x|v] _; first exact: time_update_min.
move=> /(bindP _ _ _)[s1 hs]; case: ifP => // _ [<-] /=. move: hs; case: ifP => _; last by case=> <-.
by move=> /(bindP _ _ _)[k _ [<-]].
Qed.
