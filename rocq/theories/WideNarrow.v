(** C149: without optional states the general model and the fifteen-state model are the same program. *)
From Coq Require Import Reals ZArith List Lia.
From mathcomp Require Import all_ssreflect ssralg matrix.
From Verif Require Import RealMath EarthModel ConvertModel SmoothModel InsModel FusionBase Rfield KalmanModel FusionModel FusionProofs FusionRest LayoutModel SelectModel WideModel.
From Verif Require PropSelect.
Import GRing.Theory.
Local Open Scope ring_scope.

(** as shipped *)
Definition none : selection := {| gyro_sf := false; acce_sf := false; level_arm := false; odo_sf := false |}.
(** the members both have *)
Definition narrow (w : wide none) : fusion :=
  Fu (w_ins w) (w_kf w) (w_Q0 w) (w_opt w) (w_flag w) (w_Xd w) (w_iter w) (w_idx w) (w_smooth w) (w_cnt w) (w_min w) (w_pheight w) (w_gheight w) (w_base w).

Lemma div_eq (b : nat) : PeanoNat.Nat.div b 3 = (b %/ 3)%N.
Proof. have -> : b = (b %/ 3 * 3 + b %% 3)%coq_nat by exact: divn_eq. rewrite PeanoNat.Nat.div_add_l // PeanoNat.Nat.div_small; last by apply/ltP; rewrite ltn_mod.
by rewrite -plus_n_O -[X in _ = (X %/ 3)%N]divn_eq. Qed.
Lemma mod_eq (b : nat) : PeanoNat.Nat.modulo b 3 = (b %% 3)%N.
Proof. have := PeanoNat.Nat.div_mod b 3 ltac:(by []). rewrite div_eq => e. have := divn_eq b 3. rewrite {1}e mulnC; exact: addnI. Qed.
Lemma in3 (i : nat) : (i < 15)%N -> exists b k, i = (3 * b + k)%N /\ (b < 5)%N /\ (k < 3)%N.
Proof. by move=> h; exists (i %/ 3)%N, (i %% 3)%N; rewrite mulnC -divn_eq ltn_divLR // ltn_mod. Qed.
Lemma of3 b k : (k < 3)%N -> ((3 * b + k) %/ 3 = b /\ (3 * b + k) %% 3 = k)%N.
Proof. by move=> h; rewrite mulnC divnMDl // modnMDl divn_small // modn_small // addn0. Qed.
Lemma base_cov c nav o x (i j : nat) : (i < 15)%N -> (j < 15)%N ->
  init_cov c nav o x i j = (diagonal (std_diag nav o) *m diagonal (std_diag nav o) : 'M[R]_15) (inord i) (inord j).
Proof.
move=> hi hj; rewrite diagonal_square mxE -val_eqE /= !inordK //.
have [A B] := PropSelect.C97_base_partial c nav o x.
case: eqP => [e|ne]; last exact: B.
rewrite -e; have [b [k [E [hb hk]]]] := in3 i hi; rewrite E; have [-> ->] := of3 b k hk.
rewrite A; [|exact/ltP|exact/ltP]. by case: k hk {E} => [|[|[|k]]].
Qed.
Lemma base_transition c i o (r k : nat) : (r < 15)%N -> (k < 15)%N ->
  transition c i o r k = entry (phi_block i (o_gt_corr o) (o_at_corr o) (r %/ 3)%N (k %/ 3)%N) (r %% 3)%N (k %% 3)%N.
Proof.
move=> hr hk; have [b [l [E [hb hl]]]] := in3 r hr; have [b' [l' [E' [hb' hl']]]] := in3 k hk; subst r k.
have [-> ->] := of3 b l hl; have [-> ->] := of3 b' l' hl'.
exact: (PropSelect.C99_base_partial c i o b b' l l' (elimT ltP hb) (elimT ltP hb') (elimT ltP hl) (elimT ltP hl')).
Qed.
Lemma table_rows f : of_table (base_rows f) = blocks (fun _ k => f k) :> 'M[R]_(3, 15).
Proof. by apply/matrixP => i j; rewrite !mxE /base_rows ltn_ord [(i %% 3)%N]modn_small. Qed.
Lemma comp_none (x : 'cV[R]_15) k : (k < 15)%N -> comp none x k = x (inord k) ord0.
Proof.
move=> h; rewrite /comp; case: insubP => [i hi e|]; last by rewrite h.
by congr (x _ _); apply: val_inj; rewrite /= e inordK.
Qed.
Lemma err_none (x : 'cV[R]_15) : wide_err_of none x = err_of x.
Proof. by rewrite /wide_err_of /err_of /comp3 /part /= !comp_none. Qed.
Lemma feedback_none i x : wide_feedback none i x = feedback i (err_of x).
Proof. by rewrite /wide_feedback /= err_none. Qed.
Lemma initialize_none w nav o m : option_map narrow (wide_initialize none w nav o m) = initialize (narrow w) nav o.
Proof.
rewrite /wide_initialize /initialize; case: ifP => _ //=; congr Some; rewrite /narrow /=; congr (Fu _ (Kf _ _) _ _ _ _ _ _ _ _ _ _ _ _).
  by apply/matrixP => i j; rewrite mxE base_cov // !inord_val.
apply/matrixP => i j; rewrite !mxE.
have Q : init_Q0 none o m = diagonal_loop zero_table 0 15 (fun k => coord (Q0_diag o (k %/ 3)%N) (k %% 3)%N) by [].
rewrite Q; have [-> |ne] := eqVneq i j; last by rewrite PropSelect.loop_off // => e; case/eqP: ne; apply: val_inj.
exact: (PropSelect.loop_in zero_table 0 15 (fun k => coord (Q0_diag o (k %/ 3)%N) (k %% 3)%N) j (elimT ltP (ltn_ord j))).
Qed.
Lemma transfer_none i o : wide_transfer none i o = transfer i o.
Proof.
rewrite /wide_transfer /transfer; case: ifP => // _; congr Some.
by apply/matrixP => r k; rewrite !mxE base_transition.
Qed.
Lemma zupta_none : wide_zupta_row none = zupta_row.
Proof. by apply/matrixP => i j; rewrite !mxE -val_eqE /= inordK. Qed.
Lemma design_none i lb : wide_design none i lb = blocks (fun _ b => pos_h i lb b) :> 'M[R]_(3, 15).
Proof.
apply/matrixP => a b; rewrite !mxE [(a %% 3)%N]modn_small // /position_design; cbn [level_arm none].
have -> : PeanoNat.Nat.ltb b 15 = true by apply/PeanoNat.Nat.ltb_lt/ltP.
by rewrite div_eq mod_eq.
Qed.

(** an operation of the general model and one of the other agree *)
Definition agrees (a : option (wide none)) (b : option fusion) : Prop := option_map narrow a = b.
Lemma agrees_some w : agrees (Some w) (Some (narrow w)).
Proof. by []. Qed.
Lemma agrees_bind a b (f : wide none -> option (wide none)) g :
  agrees a b -> (forall w, agrees (f w) (g (narrow w))) -> agrees (bind a f) (bind b g).
Proof. by rewrite /agrees => <-; case: a => [w|] //= e; apply: e. Qed.
Lemma agrees_kf (k : option (kf 15)) f g : (forall x, agrees (f x) (g x)) -> agrees (bind k f) (bind k g).
Proof. by move=> e; case: k => //= x. Qed.

Lemma take_none w : narrow (wide_take none w) = take_estimate (narrow w).
Proof. by rewrite /wide_take /take_estimate /=; case: Z.ltb. Qed.
Lemma feed_none w : agrees (wide_feed none w) (feed (narrow w)).
Proof.
rewrite /wide_feed /feed /=; case: Z.ltb; last exact: agrees_some.
rewrite feedback_none /=; rewrite /wide_share /share /=.
by case: (feedback _ _) => //= t; apply: (agrees_some (Wd _ _ _ _ _ _ _ _ _ _ _ _ _ _)).
Qed.
Lemma propagate_none w x : agrees (wide_propagate none w x) (propagate (narrow w) x).
Proof.
rewrite /wide_propagate /propagate /=.
case: (smooth_update _ _) => //= sm; case: (forward _ _) => //= i; rewrite transfer_none.
case: (transfer _ _) => //= phi; exact: (agrees_some (Wd _ _ _ _ _ _ _ _ _ _ _ _ _ _)).
Qed.
Lemma zero_velocity_none w : agrees (wide_zero_velocity none w) (zero_velocity (narrow w)).
Proof.
rewrite /wide_zero_velocity /zero_velocity /= table_rows zupta_none.
apply: agrees_kf => k; case: o_zupta; last exact: (agrees_some (Wd _ _ _ _ _ _ _ _ _ _ _ _ _ _)).
case: is_zero => //; apply: agrees_kf => k2; exact: (agrees_some (Wd _ _ _ _ _ _ _ _ _ _ _ _ _ _)).
Qed.
Lemma nhc_none w : agrees (wide_nhc none w) (measure_nhc (narrow w)).
Proof.
rewrite /wide_nhc /measure_nhc /= table_rows.
by apply: agrees_kf => k; exact: (agrees_some (Wd _ _ _ _ _ _ _ _ _ _ _ _ _ _)).
Qed.
Lemma zupt_step_none w : agrees (wide_zupt_step none w) (zupt_step (narrow w)).
Proof.
rewrite /wide_zupt_step /zupt_step /=; case: ifP => _; last exact: agrees_some.
case: is_static; last exact: (agrees_some (Wd _ _ _ _ _ _ _ _ _ _ _ _ _ _)).
apply: agrees_bind; first exact: zero_velocity_none.
move=> t; exact: (agrees_some (Wd _ _ _ _ _ _ _ _ _ _ _ _ _ _)).
Qed.
Lemma nhc_step_none w : agrees (wide_nhc_step none w) (nhc_step (narrow w)).
Proof.
rewrite /wide_nhc_step /nhc_step /=; case: ifP => _; last exact: (agrees_some (Wd _ _ _ _ _ _ _ _ _ _ _ _ _ _)).
apply: agrees_bind; first exact: nhc_none.
move=> t; exact: (agrees_some (Wd _ _ _ _ _ _ _ _ _ _ _ _ _ _)).
Qed.
Lemma time_none w x : agrees (wide_time none w x) (time_update (narrow w) x).
Proof.
rewrite /wide_time /time_update; rewrite -take_none.
apply: agrees_bind; first exact: feed_none.
move=> w1; apply: agrees_bind; first exact: propagate_none.
move=> w2; apply: agrees_bind; first exact: zupt_step_none.
move=> w3; apply: agrees_bind; first exact: nhc_step_none.
move=> w4; exact: (agrees_some (Wd _ _ _ _ _ _ _ _ _ _ _ _ _ _)).
Qed.
Lemma measure_pos_none w p r : agrees (wide_measure_pos none w p r) (measure_pos (narrow w) p r).
Proof.
rewrite /wide_measure_pos /measure_pos design_none /=.
by apply: agrees_kf => k; exact: (agrees_some (Wd _ _ _ _ _ _ _ _ _ _ _ _ _ _)).
Qed.
Lemma gnss_none w g : agrees (wide_gnss none w g) (gnss_update (narrow w) g).
Proof.
rewrite /wide_gnss /gnss_update; case: ifP => _; last exact: (agrees_some (Wd _ _ _ _ _ _ _ _ _ _ _ _ _ _)).
apply: agrees_bind; first exact: (measure_pos_none (Wd _ _ _ _ _ _ _ _ _ _ _ _ _ _)).
move=> t; exact: (agrees_some (Wd _ _ _ _ _ _ _ _ _ _ _ _ _ _)).
Qed.
Lemma velocity_none w v : agrees (wide_velocity none w v) (velocity_update_f (narrow w) v).
Proof.
rewrite /wide_velocity /velocity_update_f /= table_rows.
by case: o_nhc; apply: agrees_kf => k; exact: (agrees_some (Wd _ _ _ _ _ _ _ _ _ _ _ _ _ _)).
Qed.
Lemma height_none w x : agrees (wide_height none w x) (height_update (narrow w) x).
Proof.
rewrite /wide_height /height_update design_none /=.
apply: agrees_bind.
  case: Z.ltb; last exact: (agrees_some (Wd _ _ _ _ _ _ _ _ _ _ _ _ _ _)).
  by apply: agrees_kf => k; exact: (agrees_some (Wd _ _ _ _ _ _ _ _ _ _ _ _ _ _)).
move=> t; case: Z.ltb => //; exact: (agrees_some (Wd _ _ _ _ _ _ _ _ _ _ _ _ _ _)).
Qed.
Lemma do_none w k : agrees (wide_do none w k) (do_call (narrow w) k).
Proof. by case: k => [x|g|v|x] /=; [exact: time_none|exact: gnss_none|exact: velocity_none|exact: height_none]. Qed.
Lemma run_none cs : forall w, agrees (wide_run none w cs) (run_calls (narrow w) cs).
Proof.
elim: cs => [|k r ih] w /=; first exact: agrees_some.
apply: agrees_bind; first exact: do_none.
by move=> t; apply: ih.
Qed.
