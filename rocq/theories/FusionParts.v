(** In how many parts an estimate is handed over. *)
From Coq Require Import Reals ZArith List Lia Lra.
From mathcomp Require Import all_ssreflect ssralg matrix.
From Verif Require Import RealMath EarthModel ConvertModel SmoothModel InsModel InsProofs FusionBase Rfield KalmanModel KalmanSpec KalmanProofs FusionModel FusionSpec FusionProofs FusionFeed.
Import GRing.Theory.
Local Open Scope ring_scope.

(** the numbers of samples before each usable fix or velocity, since the one before it or the start; n: samples since then *)
Fixpoint stretches (n : Z) (cs : list call) : list Z :=
  match cs with
  | nil => nil
  | cons (CallImu _) r => stretches (Z.add n 1) r
  | cons (CallGnss g) r => if fix_mode (g_mode g) then cons n (stretches 0 r) else stretches n r
  | cons (CallVel _) r => cons n (stretches 0 r)
  | cons (CallHeight _) r => stretches n r
  end.

Lemma time_update_cnt s x t : time_update s x = Some t -> f_cnt t = u32 (Z.add (f_cnt s) 1).
Proof.
move=> /time_update_split[s1 [s2 [s3 [s4 [h1 h2 h3 h4 ->]]]]] /=.
have [[_ [_ [_ [_ [_ [_ [d9 _]]]]]]] _] := nhc_step_spec _ _ h4.
have [[_ [_ [_ [_ [_ [_ [c9 _]]]]]]] _] := zupt_step_spec _ _ h3.
have [sm [i [phi [_ _ _ b4]]]] := propagate_spec _ _ _ h2. have [_ [_ _ ac _ _]] := feed_spec _ _ h1.
have [_ [_ tc _]] := take_spec s. congr u32. congr Z.add. by rewrite d9 c9 b4 /= ac tc.
Qed.
Lemma gnss_monitor s g t : gnss_update s g = Some t ->
  if fix_mode (g_mode g) then f_cnt t = 0%Z /\ f_min t = Z.min (f_cnt s) (f_min s) else f_cnt t = f_cnt s /\ f_min t = f_min s.
Proof.
rewrite /gnss_update -mode_rule. case: (gnss_check g); last by case=> <-.
move=> /(bindP _ _ _)[s2 h2 [<-]]. move: h2 => /(bindP _ _ _)[k _ [<-]] /=. split=> //. case: Z.ltb_spec => *; lia.
Qed.
Lemma vel_monitor s v t : velocity_update_f s v = Some t -> f_cnt t = 0%Z /\ f_min t = Z.min (f_cnt s) (f_min s).
Proof.
rewrite /velocity_update_f. case: (o_nhc _) => /(bindP _ _ _)[k _ [<-]] /=; split=> //; case: Z.ltb_spec => *; lia.
Qed.
Lemma height_monitor s h t : height_update s h = Some t -> f_cnt t = f_cnt s /\ f_min t = f_min s.
Proof.
move=> /(bindP _ _ _)[s1 hs]; case: ifP => // _ [<-] /=. move: hs; case: ifP => _; last by case=> <-.
by move=> /(bindP _ _ _)[k _ [<-]].
Qed.

Lemma monitor_history : forall cs s t, run_calls s cs = Some t -> (0 <= f_cnt s)%Z -> (Z.add (f_cnt s) (epochs cs) < 4294967296)%Z ->
  f_min t = fold_left Z.min (stretches (f_cnt s) cs) (f_min s).
Proof.
elim=> [|c l IH] s t /=; first by case=> <-.
move=> /(bindP _ _ _)[u hu hr] c0. rewrite /epochs. case: c hu => [x|g|v|h] /= hu.
- rewrite -/(epochs l) => c1. have C := time_update_cnt _ _ _ hu. have M := time_update_min _ _ _ hu.
  have E : f_cnt u = Z.add (f_cnt s) 1. { rewrite C /u32. apply: Z.mod_small. rewrite /epochs in c1 *. lia. }
  rewrite (IH _ _ hr) ?E ?M //; first lia. rewrite /epochs in c1 *. lia.
- rewrite -/(epochs l) => c1. have := gnss_monitor _ _ _ hu. case: ifP => _ [C M].
  + rewrite (IH _ _ hr) ?C ?M //=; last by rewrite /epochs in c1 *; lia. by rewrite (Z.min_comm (f_min s)).
  + by rewrite (IH _ _ hr) ?C ?M.
- rewrite -/(epochs l) => c1. have [C M] := vel_monitor _ _ _ hu.
  rewrite (IH _ _ hr) ?C ?M //=; last by rewrite /epochs in c1 *; lia. by rewrite (Z.min_comm (f_min s)).
- rewrite -/(epochs l) => c1. have [C M] := height_monitor _ _ _ hu. by rewrite (IH _ _ hr) ?C ?M.
Qed.
Lemma min_above : forall l m, Z.ltb 1000 (fold_left Z.min l m) = Z.ltb 1000 m && forallb (Z.ltb 1000) l.
Proof.
elim=> [|a l IH] m /=; first by rewrite andbT. rewrite IH andbA. congr andb.
case: (Z.ltb_spec 1000 (Z.min m a)); case: (Z.ltb_spec 1000 m); case: (Z.ltb_spec 1000 a) => *; lia || by [].
Qed.
Lemma parts_history i0 o0 nav o s cs t : initialize (fusion_new i0 o0) nav o = Some s -> run_calls s cs = Some t ->
  (epochs cs < 4294967296)%Z ->
  max_iter (f_min t) = if forallb (Z.ltb 1000) (stretches 0 cs) then 1000%Z else 1%Z.
Proof.
move=> hi hr hn. have [E F] : f_min s = uint32_max /\ f_cnt s = 0%Z by move: hi; rewrite /initialize; case: ifP => // _ [<-].
have M := monitor_history _ _ _ hr. rewrite F E in M. rewrite M; [by rewrite /max_iter min_above|lia|lia].
Qed.
