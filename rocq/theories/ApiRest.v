(** A resting unit started from a given state, through the C interface. *)
From Coq Require Import Reals ZArith List Lia Lra.
From mathcomp Require Import all_ssreflect ssralg matrix.
From Verif Require Import RealMath EarthModel ConvertModel ConvertSpec ConvertProofs SmoothModel InsModel InsProofs InsRest InsSpec InsRest2
  FusionBase Rfield KalmanModel KalmanSpec FusionModel FusionSpec FusionProofs FusionFeed FusionCov FusionRest AlignModel ApiModel ApiSpec ApiProofs ApiCases.
Import GRing.Theory.
Local Open Scope ring_scope.

(** samples of a navigating device *)
Lemma navigating xs : forall d d1 l, d_status d = RGIOE_STATUS_NAVIGATION ->
  api_run d (List.map (fun x => ATime (Some x)) xs) = Some (d1, l) ->
  d_status d1 = RGIOE_STATUS_NAVIGATION /\ d_fusion d1 = bind (d_fusion d) (fun s => run_calls s (List.map CallImu xs)).
Proof.
elim: xs => [|x xs IH] d d1 l hs /=.
  move=> [<- _]. by split => //; case: (d_fusion d).
rewrite hs /df_time. case hm: (smooth_update (d_det d) x) => [sm|] //.
case hr: (api_run _ _) => [[d2 l2]|] // [<- _].
have [h1 h2] := IH _ _ _ (hs : d_status (d_with_fusion d (bind (d_fusion d) (fun s => time_update s x)) sm) = _) hr.
split => //. rewrite h2 /=. case: (d_fusion d) => [s|] //=.
Qed.
(** the whole history from initialisation *)
Lemma given_run d j ao p d0 x xs d1 l : api_init d j (Some ao) (Some p) = Some (d0, RGIOE_OK) ->
  o_align_mode (ao_rest ao) = ALIGN_USE_GIVEN -> api_run d0 (List.map (fun x => ATime (Some x)) (x :: xs)) = Some (d1, l) ->
  d_status d1 = RGIOE_STATUS_NAVIGATION /\
  d_fusion d1 = bind (given_nav p (ao_rest ao)) (fun n => bind (initialize (fusion_new (j_ins j) (j_opt j)) n (ao_rest ao))
    (fun s => run_calls s (List.map CallImu (x :: xs)))).
Proof.
move=> hi hm. have [i1 [i2 [i3 [i4 [i5 _]]]]] := init_ok _ _ _ _ _ hi.
have ip : d_given d0 = p by move: hi => [<-].
rewrite [List.map _ (x :: xs)]/=. cbn [api_run api_do]. rewrite /api_time i1 i2 hm Z.eqb_refl ip i4 i5 /df_time.
case: smooth_update => // sm. case hr: (api_run _ _) => [[d2 l2]|] // [<- _].
have [h1 h2] := navigating _ _ _ _ (erefl : d_status (d_with_status (d_with_fusion d0 _ sm) RGIOE_STATUS_NAVIGATION) = _) hr.
split => //. rewrite h2. cbn [d_fusion d_with_status d_with_fusion]. rewrite /df_init. cbn [bind].
case: (given_nav p (ao_rest ao)) => [n|] //. cbn [bind]. by case: (initialize _ n _).
Qed.
(** an attitude and a place that are kept: no errors configured *)
Definition clean (o : option_t) : Prop :=
  o_gb_ini o = vzero /\ o_ab_ini o = vzero /\ o_gs_ini o = vzero /\ o_as_ini o = vzero.
Lemma given_rest_nav p o e : p_atti p = Some e -> p_vn p = vzero -> clean o ->
  exists2 n, given_nav p o = Some n &
  nav_rest n (Rmult (p_lat p) deg) (Rmult (p_lon p) deg) (p_height p) (euler_to_quaternion (vscale deg e)).
Proof.
move=> ha hv [c1 [c2 [c3 c4]]]. rewrite /given_nav ha. eexists; first reflexivity. rewrite /nav_rest /= c1 c2 c3 c4 hv.
by rewrite euler_dcm_quaternion.
Qed.
(** samples of a unit at rest with attitude matrix C at a place, at the given rate *)
Definition rest_sample (C : mat) (lat h rate : R) (t : R) : imu :=
  Imu t (rest_gyro C lat (Rdiv 1 rate)) (mvec (mtrans C) (balanced lat h (Rdiv 1 rate))).
Lemma given_stays d j ao p e d0 ts d1 l : api_init d j (Some ao) (Some p) = Some (d0, RGIOE_OK) -> let o := ao_rest ao in
  o_align_mode o = ALIGN_USE_GIVEN -> p_atti p = Some e -> p_vn p = vzero -> clean o -> Rlt 0 (o_rate o) ->
  o_lb_wheel o = vzero -> o_zupta o = false -> o_project o = false ->
  let lat := Rmult (p_lat p) (Rdiv PI 180) in let lon := Rmult (p_lon p) (Rdiv PI 180) in let h := p_height p in
  place_ok lat lon h -> ts <> [::] ->
  let C := euler_to_dcm (vscale (Rdiv PI 180) e) in
  api_run d0 (List.map (fun t => ATime (Some (rest_sample C lat h (o_rate o) t))) ts) = Some (d1, l) -> d_fusion d1 <> None ->
  d_status d1 = RGIOE_STATUS_NAVIGATION /\
  (exists s, api_do d1 APos = Some (d1, RTriple (Some (V (p_lat p) (p_lon p) (p_height p))) s)) /\
  (exists s, api_do d1 AVel = Some (d1, RTriple (Some vzero) s)).
Proof.
move=> hi o hm ha hv hc hr hw hz hp lat lon h P hts C hrun hn.
have [n en hnr] := given_rest_nav p o e ha hv hc.
case: ts hts hrun => // t ts _ hrun.
have E : List.map (fun t => ATime (Some (rest_sample C lat h (o_rate o) t))) (t :: ts) =
  List.map (fun x => ATime (Some x)) (rest_sample C lat h (o_rate o) t :: List.map (rest_sample C lat h (o_rate o)) ts).
  by rewrite /= List.map_map.
rewrite E in hrun. have [hs hf] := given_run _ _ _ _ _ _ _ _ _ hi hm hrun. split => //.
rewrite -/o en in hf. cbn [bind] in hf. case hs0: (initialize _ n o) hf => [s0|] hf; last by rewrite hf in hn.
cbn [bind] in hf. case hu: (run_calls s0 _) hf => [u|] hf; last by rewrite hf in hn.
have eC : quaternion_to_dcm (euler_to_quaternion (vscale deg e)) = C by rewrite euler_dcm_quaternion.
have hq : qnorm2 (euler_to_quaternion (vscale deg e)) = 1 by exact: euler_quaternion_unit.
have hu2 : run_calls s0 (List.map (fun t => CallImu (Imu t (rest_gyro (quaternion_to_dcm (euler_to_quaternion (vscale deg e))) lat (Rdiv 1 (o_rate o)))
   (mvec (mtrans (quaternion_to_dcm (euler_to_quaternion (vscale deg e)))) (balanced lat h (Rdiv 1 (o_rate o)))))) (t :: ts)) = Some u.
  rewrite -hu eC. congr run_calls. by rewrite /= List.map_map.
have [A1 [A2 _]] := constraints_at_rest _ _ _ _ _ _ _ _ _ _ _ hs0 P hnr hq hr hw hz hu2.
have ho : f_opt u = o.
  have io : f_opt s0 = o by move: hs0; rewrite /initialize; case: ifP => // _ [<-].
  have hr2 : forall xs a b, run_calls a (List.map CallImu xs) = Some b -> f_opt b = f_opt a.
    elim=> [|x xs IH] a b /=; first by case=> <-. move=> /(bindP _ _ _)[c hc' /IH ->]. by have [_ [-> _]] := time_update_counts _ _ _ hc'.
  by rewrite (hr2 _ _ _ hu).
have D := deg_nonzero. have hd x : Rdiv (Rmult x (Rdiv PI 180)) deg = x by rewrite /Rdiv Rmult_assoc -/(Rdiv PI 180) -/deg Rinv_r // Rmult_1_r.
split; rewrite /api_do /api_pos /api_vel /df_output hf; cbn [bind]; rewrite /output /out_place ho hp A1 A2; cbn [bind].
  cbn [p_lat p_lon p_height vx vy vz]. rewrite /lat /lon !hd. by eexists.
by eexists.
Qed.

(** ** with the constraints off the numbers stay finite *)
Definition quiet_state (o : option_t) lat lon h q a g (s : fusion) : Prop :=
  at_rest (f_ins s) lat lon h (Rdiv 1 (o_rate o)) q a g /\ f_opt s = o /\ f_flag s = 0%Z /\ f_iter s = 0%Z.
Lemma quiet_step o lat lon h q t s sm : place_ok lat lon h -> qnorm2 q = 1 -> Rlt 0 (o_rate o) -> o_gt_corr o <> IZR 0 -> o_at_corr o <> IZR 0 ->
  o_zupt o = false -> o_nhc o = false ->
  let dt := Rdiv 1 (o_rate o) in
  let a := mvec (mtrans (quaternion_to_dcm q)) (balanced lat h dt) in
  let g := rest_gyro (quaternion_to_dcm q) lat dt in
  quiet_state o lat lon h q a g s -> smooth_update (f_smooth s) (Imu t g a) = Some sm ->
  exists2 u, time_update s (Imu t g a) = Some u & quiet_state o lat lon h q a g u /\ f_smooth u = sm.
Proof.
move=> P Hq Hr Hg Ha Hz Hn dt a g [hr [ho [hfl hit]]] hsm.
have Hdt : dt <> IZR 0.
  rewrite /dt /Rdiv Rmult_1_l. apply: Rinv_neq_0_compat. exact: Rgt_not_eq.
have [i [F [I _]]] := sample_rest _ _ _ _ _ _ t Hq Hdt P hr.
have et : take_estimate s = s by rewrite /take_estimate hfl.
have ef : feed s = Some s by rewrite /feed hit.
have ee : transfer i o = Some (blocks (phi_block i (o_gt_corr o) (o_at_corr o))).
  rewrite /transfer (transfer_place i lat lon h) //. by move: I => [[]].
rewrite /time_update et ef. cbn [bind]. rewrite /propagate hsm F. cbn [bind]. rewrite ho ee. cbn [bind].
set s2 := set_epoch _ _ _ _ _. have e6 : f_opt s2 = o by [].
have -> : zupt_step s2 = Some s2 by rewrite /zupt_step e6 Hz andbF.
cbn [bind]. rewrite /nhc_step e6 Hn andFb andbF. cbn [bind]. eexists; first reflexivity.
split => //.
Qed.
Lemma quiet_steps o lat lon h q ts : place_ok lat lon h -> qnorm2 q = 1 -> Rlt 0 (o_rate o) -> o_gt_corr o <> IZR 0 -> o_at_corr o <> IZR 0 ->
  o_zupt o = false -> o_nhc o = false ->
  let dt := Rdiv 1 (o_rate o) in
  let a := mvec (mtrans (quaternion_to_dcm q)) (balanced lat h dt) in
  let g := rest_gyro (quaternion_to_dcm q) lat dt in
  forall s, quiet_state o lat lon h q a g s -> (exists sm, smooth_run (f_smooth s) (List.map (fun t => Imu t g a) ts) = Some sm) ->
  exists u, run_calls s (List.map (fun t => CallImu (Imu t g a)) ts) = Some u.
Proof.
move=> P Hq Hr Hg Ha Hz Hn dt a g. elim: ts => [|t ts IH] s hs /=; first by exists s.
case E: (smooth_update _ _) => [sm|]; last by case. move=> [z hz].
have [u e [hu es]] := quiet_step _ _ _ _ _ t s sm P Hq Hr Hg Ha Hz Hn hs E. rewrite e. cbn [bind].
apply: IH => //. exists z. by rewrite es.
Qed.
Lemma given_finite d j ao p e d0 ts d1 l : api_init d j (Some ao) (Some p) = Some (d0, RGIOE_OK) -> let o := ao_rest ao in
  o_align_mode o = ALIGN_USE_GIVEN -> p_atti p = Some e -> p_vn p = vzero -> clean o -> Rlt 0 (o_rate o) ->
  o_gt_corr o <> IZR 0 -> o_at_corr o <> IZR 0 -> o_zupt o = false -> o_nhc o = false ->
  let lat := Rmult (p_lat p) (Rdiv PI 180) in let lon := Rmult (p_lon p) (Rdiv PI 180) in let h := p_height p in
  place_ok lat lon h -> ts <> [::] -> (Z.of_nat (length ts) <= int_max)%Z ->
  let C := euler_to_dcm (vscale (Rdiv PI 180) e) in
  api_run d0 (List.map (fun t => ATime (Some (rest_sample C lat h (o_rate o) t))) ts) = Some (d1, l) -> d_fusion d1 <> None.
Proof.
move=> hi o hm ha hv hc hr hg ht hz hn lat lon h P hts hlen C hrun.
have [n en hnr] := given_rest_nav p o e ha hv hc.
case: ts hts hrun hlen => // t ts _ hrun hlen.
have E : List.map (fun t => ATime (Some (rest_sample C lat h (o_rate o) t))) (t :: ts) =
  List.map (fun x => ATime (Some x)) (rest_sample C lat h (o_rate o) t :: List.map (rest_sample C lat h (o_rate o)) ts).
  by rewrite /= List.map_map.
rewrite E in hrun. have [hs hf] := given_run _ _ _ _ _ _ _ _ _ hi hm hrun. 
have nz x : x <> IZR 0 -> is_zero x = false by rewrite /is_zero; case: Req_EM_T.
have hs0 : exists2 s0, initialize (fusion_new (j_ins j) (j_opt j)) n o = Some s0 &
   forall a g, quiet_state o lat lon h (euler_to_quaternion (vscale deg e)) a g s0 /\ f_smooth s0 = fusion_smooth.
  rewrite /initialize (nz _ (Rgt_not_eq _ _ hr)) (nz _ hg) (nz _ ht) /=. eexists; first reflexivity. split => //.
  split => //. split => //=. split => //. by left.
have [s0 es0 hq0] := hs0. have [hq1 hsm] := hq0 (mvec (mtrans (quaternion_to_dcm (euler_to_quaternion (vscale deg e)))) (balanced lat h (Rdiv 1 (o_rate o))))
  (rest_gyro (quaternion_to_dcm (euler_to_quaternion (vscale deg e))) lat (Rdiv 1 (o_rate o))).
rewrite -/o en in hf. cbn [bind] in hf. rewrite es0 in hf. cbn [bind] in hf.
have eC : quaternion_to_dcm (euler_to_quaternion (vscale deg e)) = C by rewrite euler_dcm_quaternion.
have hq : qnorm2 (euler_to_quaternion (vscale deg e)) = 1 by exact: euler_quaternion_unit.
set G := rest_gyro _ _ _ in hq1. set A := mvec _ _ in hq1.
have hlen2 : (Z.of_nat (length (List.map (fun t0 => Imu t0 G A) (t :: ts))) <= int_max)%Z by rewrite List.map_length.
have [z hz'] := SmoothProofs.run_defined five_nano 2 10 (List.map (fun t0 => Imu t0 G A) (t :: ts)) hlen2.
have hsr : exists sm, smooth_run (f_smooth s0) (List.map (fun t0 => Imu t0 G A) (t :: ts)) = Some sm by exists z; rewrite hsm.
have [u hu] := quiet_steps o lat lon h _ (t :: ts) P hq hr hg ht hz hn s0 hq1 hsr.
move: hf. have -> : run_calls s0 (List.map CallImu (rest_sample C lat h (o_rate o) t :: List.map (rest_sample C lat h (o_rate o)) ts)) = Some u.
  rewrite -hu eC. congr run_calls. by rewrite /= List.map_map.
by move=> ->.
Qed.
