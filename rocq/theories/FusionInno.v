(** The innovation of a position fix. *)
From Coq Require Import Reals ZArith List Lia Lra.
From mathcomp Require Import all_ssreflect ssralg matrix.
From Verif Require Import RealMath EarthModel ConvertModel ConvertSpec ConvertProofs SmoothModel InsModel InsProofs InsRest InsRest2 FusionBase Rfield KalmanModel KalmanSpec KalmanProofs FusionModel FusionSpec FusionProofs FusionFeed FusionCov.
Import GRing.Theory.
Local Open Scope ring_scope.

Definition cne_ok (i : ins) : Prop := n_Cne (s_nav i) = lla_to_cne (vx (n_pos (s_nav i))) (vy (n_pos (s_nav i))).

Lemma forward_cne i x j : forward i x = Some j -> cne_ok j.
Proof.
rewrite /forward /mechanise => /(bindP _ _ _)[t /(bindP _ _ _)[s1 h1 /(bindP _ _ _)[s2 h2 /(bindP _ _ _)[s3 h3 [<-]]]] [<-]] /=.
rewrite /cne_ok /=. move: h3; rewrite /position_update => /(bindP _ _ _)[ll _ /(bindP _ _ _)[w _ [<-]]]. by [].
Qed.
Lemma time_update_cne s x t : time_update s x = Some t -> cne_ok (f_ins t).
Proof.
move=> /time_update_split[s1 [s2 [s3 [s4 [h1 h2 h3 h4 ->]]]]] /=.
have [_ [dn _]] := nhc_step_spec _ _ h4. have [_ [cn _]] := zupt_step_spec _ _ h3.
have [sm [i [phi [_ b2 _ b4]]]] := propagate_spec _ _ _ h2. have := forward_cne _ _ _ b2.
have -> : i = f_ins s2 by rewrite b4. rewrite /cne_ok => H.
have H3 : cne_ok (f_ins s3) by rewrite cn; do ?[case: ifP => _].
by rewrite dn; case: ifP.
Qed.
Lemma do_call_cne s c t : cne_ok (f_ins s) -> do_call s c = Some t -> cne_ok (f_ins t).
Proof.
move=> h; case: c => [x|g|v|v] /=; first exact: time_update_cne.
- case E: (gnss_check g); last by rewrite /gnss_update E => -[<-].
  by rewrite gnss_accepted // => /(bindP _ _ _)[k _ [<-]].
- by rewrite /velocity_update_f; case: o_nhc => /(bindP _ _ _)[k _ [<-]].
- move=> /(bindP _ _ _)[s1 hs]; case: ifP => // _ [<-] /=. move: hs; case: ifP => _; last by case=> <-.
  by move=> /(bindP _ _ _)[k _ [<-]].
Qed.
Lemma run_cne cs : forall s t, cne_ok (f_ins s) -> run_calls s cs = Some t -> cne_ok (f_ins t).
Proof.
elim: cs => [|c cs IH] s t h /=; first by case=> <-. move=> /(bindP _ _ _)[u hu]. apply: IH. exact: do_call_cne hu.
Qed.

Lemma innovation_axes i lb pos : cne_ok i ->
  let lat := vx (n_pos (s_nav i)) in let lon := vy (n_pos (s_nav i)) in
  vsub (vadd (lla_to_xyz (n_pos (s_nav i))) (local_vector lat lon (mvec (n_Cbn (s_nav i)) lb))) (lla_to_xyz pos) =
  local_vector lat lon (pos_z i lb pos).
Proof.
move=> h lat lon. rewrite /local_vector -!cne_axes /pos_z h -/lat -/lon.
have rot : rotation (lla_to_cne lat lon) by rewrite -qne_dcm; apply: dcm_rotation; exact: qne_unit.
rewrite mvec_vadd dcm_back //. move: (lla_to_xyz _) (lla_to_xyz _) (mvec _ _) => a b c. exact: vsum_swap.
Qed.
Lemma innovation_history s0 nav o s cs t lb pos : initialize s0 nav o = Some s ->
  n_Cne nav = lla_to_cne (vx (n_pos nav)) (vy (n_pos nav)) -> run_calls s cs = Some t ->
  let n := s_nav (f_ins t) in let lat := vx (n_pos n) in let lon := vy (n_pos n) in
  local_vector lat lon (pos_z (f_ins t) lb pos) =
  vsub (vadd (lla_to_xyz (n_pos n)) (local_vector lat lon (mvec (n_Cbn n) lb))) (lla_to_xyz pos).
Proof.
move=> hi hc hr n lat lon. symmetry. apply: innovation_axes. apply: run_cne hr.
by move: hi; rewrite /initialize; case: ifP => // _ [<-].
Qed.
