(** The accuracies of position and attitude after the first sample. *)
From Coq Require Import Reals ZArith List Lia Lra.
From mathcomp Require Import all_ssreflect ssralg matrix.
From Verif Require Import RealMath EarthModel ConvertModel SmoothModel InsModel FusionBase Rfield KalmanModel KalmanSpec FusionModel FusionSpec
  FusionProofs FusionFeed FusionCov FusionRest FusionFix FusionHeight FusionCases InsProofs InsRest InsSpec InsRest2 ConvertSpec ConvertProofs AlignModel ApiModel ApiSpec ApiProofs.
Import GRing.Theory.
Local Open Scope ring_scope.

Lemma diag_cov (phi : 'M[R]_15) f i :
  (phi *m (diagonal f *m diagonal f) *m phi^T) i i = \sum_k ((phi i k * @diagonal 15 f k k) * (phi i k * @diagonal 15 f k k)).
Proof.
rewrite mulmxA -mulmxA mxE. apply: eq_bigr => k _. rewrite mul_diag_r mul_diag_l [phi^T _ _]mxE. by rewrite [phi i k * _]mulrC.
Qed.
Lemma sum_part (F : 'I_15 -> R) i : (forall k, Rle 0 (F k)) -> Rle (F i) (\sum_k F k).
Proof.
move=> h. rewrite (bigD1 i) //=. rewrite -{1}[F i]addr0. apply: Rplus_le_compat_l.
elim/big_rec: _ => [|k y _ hy]; first exact: Rle_refl. exact: (Rplus_le_le_0_compat _ _ (h k) hy).
Qed.
Lemma real_square_ge x : Rle 0 (Rmult x x).
Proof. exact: Rle_0_sqr. Qed.

Lemma first_variances s0 nav o s x t : (0 <= f_flag s0)%Z -> unconstrained o ->
  n_att_std nav = vzero -> o_gb_std o = vzero -> o_arw o = IZR 0 ->
  initialize s0 nav o = Some s -> time_update s x = Some t ->
  (forall k, (k < 3)%N -> kP (f_kf t) (st (6 + k)) (st (6 + k)) = 0) /\
  (forall k, (k < 3)%N -> Rle (Rmult (coord (n_pos_std nav) k) (coord (n_pos_std nav) k)) (kP (f_kf t) (st k) (st k))).
Proof.
move=> hf q ha hg hw hi ht. have [hd [hr [ho [f0 hP]]]] := first_epoch _ _ _ _ _ _ hf q hi ht.
set phi := blocks _ in hP. split => k hk.
- have hk6 : (6 + k < 15)%N by case: k hk => [|[|[|k]]].
  have hq : ((6 + k) %/ 3 = 2)%N by case: k hk {hk6} => [|[|[|k]]].
  rewrite hP mxE diag_cov noise_entry; last exact: diagonal_symmetric.
  rewrite big1 => [|l _].
    have -> : @diagonal 15 (Q0_diag o) (st (6 + k)) (st (6 + k)) = 0.
      rewrite mxE eqxx st_val // hq /= hw. have -> : Rmult (IZR 0) (IZR 0) = 0 by exact: Rmult_0_l.
      by case: ((6 + k) %% 3)%N => [|[|?]].
    rewrite add0r. exact: real_zero2.
  have [hl|hl] := boolP ((l %/ 3 == 2)%N || (l %/ 3 == 3)%N).
    have -> : @diagonal 15 (std_diag nav o) l l = 0; last by rewrite mulr0 mulr0.
    rewrite mxE eqxx. by case/orP: hl => /eqP -> /=; rewrite ?ha ?hg; case: (l %% 3)%N => [|[|?]].
  have -> : phi (st (6 + k)) l = 0; last by rewrite mul0r mul0r.
  rewrite phi_entry st_val // hq. move: hl. by case: (l %/ 3)%N => [|[|[|[|m]]]] //= _; case: ((6 + k) %% 3)%N => [|[|[|?]]] //; case: (l %% 3)%N => [|[|[|?]]].
- have hk15 : (k < 15)%N by exact: ltn_trans hk _.
  rewrite hP mxE diag_cov noise_entry; last exact: diagonal_symmetric.
  have -> : @diagonal 15 (Q0_diag o) (st k) (st k) = 0.
    rewrite mxE eqxx st_val // divn_small //=. by case: k hk {hk15} => [|[|[|k]]].
  rewrite [X in _ + X](_ : _ = 0); last exact: real_zero2. rewrite addr0.
  have e : phi (st k) (st k) * @diagonal 15 (std_diag nav o) (st k) (st k) = coord (n_pos_std nav) k.
    rewrite phi_entry [diagonal _ _ _]mxE eqxx st_val // divn_small // modn_small //=.
    have u : forall a c : R, (Rplus 1 (Rmult (-1) (Rmult a 0))) * c = c.
      move=> a c. by rewrite Rmult_0_r Rmult_0_r Rplus_0_r; exact: mul1r.
    case: k hk {hk15} => [|[|[|k]]] //= _; exact: u.
  rewrite -{1 2}e. apply: (sum_part (fun l => phi (st k) l * @diagonal 15 (std_diag nav o) l l * (phi (st k) l * @diagonal 15 (std_diag nav o) l l)) (st k)) => l. exact: real_square_ge.
Qed.

(** ** at the interface *)
Lemma root_zero : Rle 0 (IZR 0).
Proof. exact: Rle_refl. Qed.
Lemma roots_zero (v : vec) : v = vzero -> roots v = Some vzero.
Proof.
move=> ->. rewrite /roots /=. case: Rle_dec => [h|h]; last by case: h; exact: Rle_refl. by rewrite sqrt_0.
Qed.
Lemma roots_above (v w : vec) : Rlt 0 (vx w) -> Rlt 0 (vy w) -> Rlt 0 (vz w) ->
  Rle (Rmult (vx w) (vx w)) (vx v) -> Rle (Rmult (vy w) (vy w)) (vy v) -> Rle (Rmult (vz w) (vz w)) (vz v) ->
  exists2 r, roots v = Some r & Rle (vx w) (vx r) /\ Rle (vy w) (vy r) /\ Rle (vz w) (vz r).
Proof.
have S : forall a b : R, Rlt 0 a -> Rle (Rmult a a) b -> Rle 0 b /\ Rle a (sqrt b).
  move=> a b ha hb. have h0 : Rle 0 (Rmult a a) by exact: Rle_0_sqr. split; first exact: (Rle_trans _ _ _ h0 hb).
  rewrite -(sqrt_square a); last exact: Rlt_le. exact: sqrt_le_1_alt.
move=> x0 y0 z0 /(S _ _ x0)[x1 x2] /(S _ _ y0)[y1 y2] /(S _ _ z0)[z1 z2]. rewrite /roots.
case: Rle_dec => [k1|k1]; last by []. case: Rle_dec => [k2|k2]; last by []. case: Rle_dec => [k3|k3]; last by []. by eexists; first reflexivity.
Qed.
Lemma get_pos_zero d j ao p d0 x d1 a t : api_init d j (Some ao) (Some p) = Some (d0, RGIOE_OK) ->
  let o := ao_rest ao in o_align_mode o = ALIGN_USE_GIVEN -> unconstrained o -> o_project o = false ->
  o_att_std o = vzero -> o_gb_std o = vzero -> o_arw o = IZR 0 ->
  Rlt 0 (vx (o_pos_std o)) -> Rlt 0 (vy (o_pos_std o)) -> Rlt 0 (vz (o_pos_std o)) ->
  api_do d0 (ATime (Some x)) = Some (d1, a) -> d_fusion d1 = Some t ->
  (exists v, api_do d1 APos = Some (d1, RTriple (Some v) (Some vzero))) /\
  forall b, exists q s, api_do d1 (AResult b) = Some (d1, RPva (Some q)) /\ p_pos_std q = Some s /\
    Rle (vx (o_pos_std o)) (vx s) /\ Rle (vy (o_pos_std o)) (vy s) /\ Rle (vz (o_pos_std o)) (vz s).
Proof.
move=> hi o hm q hp ha hg hw x0 y0 z0. have [i1 [i2 [i3 [i4 [i5 _]]]]] := init_ok _ _ _ _ _ hi.
have ip : d_given d0 = p by move: hi => [<-].
move=> hd hF.
have [hst [n [s [hn hs ht]]]] : d_status d1 = RGIOE_STATUS_NAVIGATION /\ exists n s, [/\ given_nav p o = Some n,
    initialize (fusion_new (j_ins j) (j_opt j)) n o = Some s & time_update s x = Some t].
  move: hd. rewrite /api_do /api_time i1 i2 hm Z.eqb_refl ip i4 i5 /df_time. case: smooth_update => // sm [e1 _].
  split; first by rewrite -e1. move: hF. rewrite -e1. cbn [d_fusion d_with_status d_with_fusion].
  rewrite /df_init. cbn [bind]. move=> /(bindP _ _ _)[s hs ht]. move: hs => /(bindP _ _ _)[n hn hs]. by exists n, s.
have hn1 : n_att_std n = o_att_std o /\ n_pos_std n = o_pos_std o by move: hn; rewrite /given_nav; case: p_atti => // e [<-].
have hf : (0 <= f_flag (fusion_new (j_ins j) (j_opt j)))%Z by [].
have [na np] := hn1. have ho : f_opt t = o by have [_ [_ [-> _]]] := first_epoch _ _ _ _ _ _ hf q hs ht.
rewrite -na in ha. have [v6 v0] := first_variances _ _ _ _ _ _ hf q ha hg hw hs ht.
have stn k : inord k = st k :> 'I_15 by [].
have e6 : roots (diag3 (kP (f_kf t)) 6) = Some vzero.
  apply: roots_zero. by rewrite /diag3 !stn (v6 0%N) // (v6 1%N) // (v6 2%N).
have [r er [r1 [r2 r3]]] : exists2 r, roots (diag3 (kP (f_kf t)) 0) = Some r &
  Rle (vx (o_pos_std o)) (vx r) /\ Rle (vy (o_pos_std o)) (vy r) /\ Rle (vz (o_pos_std o)) (vz r).
  apply: roots_above => //; rewrite -np; [exact: (v0 0%N)|exact: (v0 1%N)|exact: (v0 2%N)].
have [u [u1 [u2 u3]]] : exists u, df_output d1 = Some u /\ p_atti_std u = Some vzero /\ p_pos_std u = Some r.
  rewrite /df_output hF /= /output /out_place ho hp. eexists; split; first reflexivity. by rewrite /= e6 er.
split.
  rewrite /api_do /api_pos u1. cbn [bind]. rewrite u2. eexists. reflexivity.
move=> b. exists u, r. by rewrite /api_do /api_result hst u1.
Qed.

(** a unit at rest on the equator, started from a given state *)
Definition given_opt : option_t :=
  Opt 0 0 vzero vzero vzero vzero vzero vzero 3600 3600 100 2 1 vzero 1 false 1 1 false 1 false 1 false 1 1 vzero vzero (V 1 1 1) vzero vzero false vzero vzero.

Definition given_ao : api_option := AOpt true given_opt.
Definition given_junk : junk := Junk case_ins given_opt vzero.
Lemma given_state : given_nav pva_zero given_opt = Some (nav_kd (case_nav (V 1 1 1)) 1).
Proof.
have e0 : Rmult 0 deg = 0 by exact: Rmult_0_l. have e1 : vscale deg vzero = vzero.
  rewrite /vscale /vzero /=. by rewrite (Rmult_0_r deg).
rewrite /given_nav. cbn [p_atti p_lat p_lon pva_zero]. rewrite e0 e1. by [].
Qed.
Lemma given_first_sample d t : exists d0 d1 u, api_init d given_junk (Some given_ao) (Some pva_zero) = Some (d0, RGIOE_OK) /\
  api_do d0 (ATime (Some (case_sample 0 t))) = Some (d1, RCode RGIOE_OK) /\ d_fusion d1 = Some u.
Proof.
rewrite /api_init. set d0 := Dev _ _ _ _ _ _. exists d0.
have [sm hsm] : exists sm, smooth_update fusion_smooth (case_sample 0 t) = Some sm.
  rewrite /smooth_update /=. case: Rlt_dec => _; by eexists.
have hi : exists2 s, initialize (fusion_new case_ins given_opt) (nav_kd (case_nav (V 1 1 1)) 1) given_opt = Some s &
  f_smooth s = fusion_smooth /\ f_ins s = f_ins (case_start 0 false (V 1 1 1)) /\ f_opt s = given_opt /\ f_flag s = 0%Z /\ f_iter s = 0%Z.
  have h1 : is_zero 100 = false by apply: not_zero_b; exact: (not_0_IZR 100).
  have h2 : is_zero 3600 = false by apply: not_zero_b; exact: (not_0_IZR 3600).
  rewrite /initialize /= h1 h2. by eexists.
have [s e [e1 [e2 [e3 [e4 e5]]]]] := hi.
have Hdt : Rdiv 1 100 <> IZR 0 by exact: real_hundredth.
have [i [F [I _]]] := sample_rest _ _ _ _ _ _ t case_unit Hdt case_place (case_rest 0 false (V 1 1 1) _ _).
rewrite -/(case_sample 0 t) in F. rewrite -e2 in F.
have T : exists u, time_update s (case_sample 0 t) = Some u.
  have et : take_estimate s = s by rewrite /take_estimate e4.
  have ef : feed s = Some s by rewrite /feed e5.
  have ee : transfer i given_opt = Some (blocks (phi_block i 3600 3600)).
    rewrite /transfer (transfer_place i 0 0 0) //; try exact: case_place; try exact: (not_0_IZR 3600). by move: I => [[]].
  rewrite /time_update et ef. cbn [bind]. rewrite /propagate e1 hsm F. cbn [bind]. rewrite e3 ee. cbn [bind].
  set s2 := set_epoch _ _ _ _ _. have e6 : f_opt s2 = given_opt by [].
  have -> : zupt_step s2 = Some s2 by rewrite /zupt_step e6 [o_zupt _]/= andbF.
  cbn [bind]. rewrite /nhc_step e6 [o_nhc _]/= andFb andbF. cbn [bind]. by eexists.
have [u hu] := T.
have hd : api_do d0 (ATime (Some (case_sample 0 t))) =
  Some (d_with_status (d_with_fusion d0 (Some u) sm) RGIOE_STATUS_NAVIGATION, RCode RGIOE_OK).
  rewrite /api_do /api_time /d0. cbn [d_status d_opt d_given d_fusion d_det]. rewrite [o_align_mode _]/= [(2 =? _)%Z]/=.
  rewrite [ao_rest _]/= given_state /df_init. cbn [bind j_ins j_opt given_junk]. rewrite e /df_time hsm. cbn [bind]. by rewrite hu.
by exists (d_with_status (d_with_fusion d0 (Some u) sm) RGIOE_STATUS_NAVIGATION), u.
Qed.
