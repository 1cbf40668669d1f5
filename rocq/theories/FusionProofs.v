(** Facts about the filter: symmetry, rejected fixes, schedule, feedback. *)
From Coq Require Import Reals ZArith List Lia.
From mathcomp Require Import all_ssreflect ssralg matrix.
From Verif Require Import RealMath EarthModel ConvertModel SmoothModel InsModel InsProofs FusionBase Rfield KalmanModel KalmanSpec KalmanProofs FusionModel FusionSpec.
Import GRing.Theory.
Local Open Scope ring_scope.

Lemma bindP {A B} (o : option A) (f : A -> option B) b : bind o f = Some b -> exists2 a, o = Some a & f a = Some b.
Proof. by case: o => [a|] // H; exists a. Qed.

Lemma diagonal_symmetric n f : symmetric (@diagonal n f).
Proof.
apply/matrixP => i j; rewrite !mxE eq_sym. by case: eqP => [->|].
Qed.
Lemma scalar_symmetric n (a : R) : symmetric (a%:M : 'M[R]_n).
Proof. exact: tr_scalar_mx. Qed.
Lemma square_symmetric n (d : 'M[R]_n) : symmetric d -> symmetric (d *m d).
Proof. by move=> h; rewrite /symmetric trmx_mul h. Qed.
Lemma noise_symmetric phi q0 dt : symmetric q0 -> symmetric (process_noise phi q0 dt).
Proof.
move=> h. rewrite /symmetric /process_noise !linearZ /= linearD /= !trmx_mul trmxK h. by rewrite !scalerA [X in X *: _]mulrC [X in _ *: X]addrC.
Qed.

(** ** symmetry *)
Definition sym_state (s : fusion) : Prop := symmetric (kP (f_kf s)) /\ symmetric (f_Q0 s).

Lemma take_sym s : sym_state s -> sym_state (take_estimate s).
Proof. by move=> h; rewrite /take_estimate; case: ifP. Qed.
Lemma feed_sym s t : sym_state s -> feed s = Some t -> sym_state t.
Proof. move=> h; rewrite /feed; case: ifP => _; last by case=> <-. by move=> /(bindP _ _ _)[i _ [<-]]. Qed.
Lemma propagate_sym s x t : sym_state s -> propagate s x = Some t -> sym_state t.
Proof.
move=> [hp hq] /(bindP _ _ _)[sm _ /(bindP _ _ _)[i _ /(bindP _ _ _)[phi _ [<-]]]]; split => //.
apply: predict_symmetric => //. exact: noise_symmetric.
Qed.
Lemma zero_velocity_sym s t : sym_state s -> zero_velocity s = Some t -> sym_state t.
Proof.
move=> [hp hq] /(bindP _ _ _)[k hk]. 
have sk : symmetric (kP k) by apply: update_symmetric hk => //; exact: diagonal_symmetric.
case: o_zupta => [|[<-]]; last by [].
case: (is_zero _) => // /(bindP _ _ _)[k2 hk2 [<-]]; split => //.
apply: update_symmetric hk2 => //; exact: scalar_symmetric.
Qed.
Lemma zupt_step_sym s t : sym_state s -> zupt_step s = Some t -> sym_state t.
Proof.
move=> h; rewrite /zupt_step; case: ifP => _; last by case=> <-. case: is_static => [|[<-]] //.
move=> /(bindP _ _ _)[s1 h1 [<-]]. exact: (zero_velocity_sym s s1 h h1).
Qed.
Lemma measure_nhc_sym s t : sym_state s -> measure_nhc s = Some t -> sym_state t.
Proof.
move=> [hp hq] /(bindP _ _ _)[k hk [<-]]; split => //. apply: update_symmetric hk => //.
apply: square_symmetric; exact: diagonal_symmetric.
Qed.
Lemma nhc_step_sym s t : sym_state s -> nhc_step s = Some t -> sym_state t.
Proof.
move=> h; rewrite /nhc_step; case: ifP => _; last by case=> <-.
move=> /(bindP _ _ _)[s1 h1 [<-]]. exact: (measure_nhc_sym s s1 h h1).
Qed.
Lemma time_update_sym s x t : sym_state s -> time_update s x = Some t -> sym_state t.
Proof.
move=> h /(bindP _ _ _)[s1 h1 /(bindP _ _ _)[s2 h2 /(bindP _ _ _)[s3 h3 /(bindP _ _ _)[s4 h4 [<-]]]]].
have := nhc_step_sym _ _ (zupt_step_sym _ _ (propagate_sym _ _ _ (feed_sym _ _ (take_sym _ h) h1) h2) h3) h4.
by [].
Qed.
Lemma gnss_update_sym s g t : sym_state s -> gnss_update s g = Some t -> sym_state t.
Proof.
move=> [hp hq]; rewrite /gnss_update; case: ifP => _; last by case=> <-.
move=> /(bindP _ _ _)[s2 /(bindP _ _ _)[k hk [<-]] [<-]]; split => //=. apply: update_symmetric hk => //.
exact: diagonal_symmetric.
Qed.
Lemma velocity_update_sym s v t : sym_state s -> velocity_update_f s v = Some t -> sym_state t.
Proof.
move=> [hp hq]; rewrite /velocity_update_f; case: o_nhc => /(bindP _ _ _)[k hk [<-]]; split => //=; apply: update_symmetric hk => //.
  by apply: square_symmetric; exact: diagonal_symmetric.
exact: scalar_symmetric.
Qed.
Lemma height_update_sym s v t : sym_state s -> height_update s v = Some t -> sym_state t.
Proof.
move=> [hp hq] /(bindP _ _ _)[s1 h1]; case: ifP => // _ [<-]. move: h1; case: ifP => _; last by case=> <-.
move=> /(bindP _ _ _)[k hk [<-]]; split => //=. apply: update_symmetric hk => //; exact: scalar_symmetric.
Qed.
Lemma do_call_sym s c t : sym_state s -> do_call s c = Some t -> sym_state t.
Proof.
case: c => [x|g|v|v] /=; [exact: time_update_sym|exact: gnss_update_sym|exact: velocity_update_sym|exact: height_update_sym].
Qed.
Lemma initialize_sym s nav o t : initialize s nav o = Some t -> sym_state t.
Proof.
rewrite /initialize. case: ifP => // _. case=> <-; split; last exact: diagonal_symmetric.
apply: square_symmetric; exact: diagonal_symmetric.
Qed.
Lemma run_sym cs : forall s t, sym_state s -> run_calls s cs = Some t -> sym_state t.
Proof.
elim: cs => [|c cs IH] s t h /=; first by case=> <-. move=> /(bindP _ _ _)[u hu]. apply: IH. exact: do_call_sym hu.
Qed.
Lemma history_symmetric s0 nav o cs s t : initialize s0 nav o = Some s -> run_calls s cs = Some t -> symmetric (kP (f_kf t)).
Proof. move=> h1 h2. by case: (run_sym _ _ _ (initialize_sym _ _ _ _ h1) h2). Qed.

(** ** two fixes before the next sample *)
Lemma update_P {n m} (k k' : kf n) (h : 'M[R]_(m, n)) z r : kP k = kP k' -> kf_update k h z r = kf_update k' h z r.
Proof. by move=> E; rewrite /kf_update E. Qed.
Lemma update_z {n m} (k : kf n) (h : 'M[R]_(m, n)) z z' r :
  match kf_update k h z r, kf_update k h z' r with
  | Some a, Some b => kP a = kP b | None, None => True | _, _ => False
  end.
Proof. rewrite /kf_update; by case: ifP. Qed.

Definition H_pos (s : fusion) : 'M[R]_(3, 15) := blocks (fun _ c => pos_h (f_ins s) (o_lb_gnss (f_opt s)) c).
Definition z_pos (s : fusion) (p : vec) : 'cV[R]_3 := column (fun _ => pos_z (f_ins s) (o_lb_gnss (f_opt s)) p).
Lemma gnss_accepted s g : gnss_check g = true ->
  gnss_update s g = bind (kf_update (f_kf s) (H_pos s) (z_pos s (fix_place g)) (fix_noise (f_opt s) g)) (fun k =>
    Some (Fu (mode_set (sensors_set (f_ins s) SENSOR_GNSS) (Z.to_nat (Z.modulo (g_mode g) 65536))) k (f_Q0 s) (f_opt s)
             (Z.lor (f_flag s) FLAG_POSITION) (f_Xd s) (f_iter s) (f_idx s) (f_smooth s) 0
             (if Z.ltb (f_cnt s) (f_min s) then f_cnt s else f_min s) (f_pheight s) (g_height g) 1)).
Proof. move=> h; rewrite /gnss_update h /measure_pos. by case: kf_update. Qed.

Lemma lor_again a b : Nat.lor (Nat.lor a b) b = Nat.lor a b.
Proof. by rewrite -Nat.lor_assoc Nat.lor_diag. Qed.
Lemma gnss_twice s g1 g1' g2 : gnss_check g1 = true -> gnss_check g1' = true -> gnss_check g2 = true -> g_std g1 = g_std g1' ->
  bind (gnss_update s g1) (fun u => gnss_update u g2) = bind (gnss_update s g1') (fun u => gnss_update u g2).
Proof.
move=> h1 h1' h2 hs. rewrite !gnss_accepted //.
have -> : fix_noise (f_opt s) g1 = fix_noise (f_opt s) g1' by rewrite /fix_noise hs.
have := update_z (f_kf s) (H_pos s) (z_pos s (fix_place g1)) (z_pos s (fix_place g1')) (fix_noise (f_opt s) g1').
case: (kf_update _ _ (z_pos s (fix_place g1)) _) => [a|]; case: (kf_update _ _ (z_pos s (fix_place g1')) _) => [b|] //= hab.
rewrite !gnss_accepted //=. rewrite -!/(f_opt _) /H_pos /z_pos /=.
by rewrite (update_P a b _ _ _ hab).
Qed.

(** ** what the constraint updates leave alone *)
Definition frame (s t : fusion) : Prop :=
  f_Q0 t = f_Q0 s /\ f_opt t = f_opt s /\ f_Xd t = f_Xd s /\ f_iter t = f_iter s /\ f_idx t = f_idx s /\
  f_smooth t = f_smooth s /\ f_cnt t = f_cnt s /\ f_min t = f_min s /\ f_pheight t = f_pheight s /\
  f_gheight t = f_gheight s /\ f_base t = f_base s.
Lemma frame_refl s : frame s s.
Proof. by []. Qed.

Definition bit (i : ins) (b : nat) : bool := Nat.testbit (n_sensors (s_nav i)) b.
Lemma set_bit i k b : (k < 16)%N -> bit (sensors_set i (2 ^ k)) b = (b == k) || bit i b.
Proof.
move=> _. rewrite /bit /sensors_set /= Nat.lor_spec orbC; congr (_ || _).
have -> : expn 2 k = Nat.pow 2 k by elim: k => [|k IH] //; rewrite expnS IH Nat.pow_succ_r'.
case: eqP => [->|E]; first exact: Nat.pow2_bits_true.
by rewrite Nat.pow2_bits_false // => E'; case: E.
Qed.
Lemma clear_bit i k b : (k < 16)%N -> bit (sensors_clear i (2 ^ k)) b = (b != k) && bit i b.
Proof.
move=> _. rewrite /bit /sensors_clear /= Nat.ldiff_spec andbC; congr (_ && _).
have -> : expn 2 k = Nat.pow 2 k by elim: k => [|k IH] //; rewrite expnS IH Nat.pow_succ_r'.
case: eqP => [->|E]; first by rewrite Nat.pow2_bits_true.
by rewrite Nat.pow2_bits_false // => E'; case: E.
Qed.

Lemma zero_velocity_frame s t : zero_velocity s = Some t -> frame s t /\ f_ins t = f_ins s.
Proof.
rewrite /zero_velocity. move=> /(bindP _ _ _)[k _]. case: o_zupta => [|[<-]] //.
by case: (is_zero _) => // /(bindP _ _ _)[k2 _ [<-]].
Qed.
Lemma measure_nhc_frame s t : measure_nhc s = Some t -> frame s t /\ f_ins t = f_ins s.
Proof. by move=> /(bindP _ _ _)[k _ [<-]]. Qed.

(** zero velocity update due in an epoch, non-holonomic update due *)
Definition zupt_due (s : fusion) : bool := [&& ~~ Z.eqb (Z.modulo (f_idx s) 8) 0, o_zupt (f_opt s) & is_static (f_smooth s)].
Definition nhc_due (s : fusion) : bool := [&& Z.eqb (Z.modulo (f_idx s) 32) 1, o_nhc (f_opt s) & ~~ o_odo (f_opt s)].

Lemma zupt_step_spec s t : zupt_step s = Some t ->
  frame s t /\
  f_ins t = (if (~~ Z.eqb (Z.modulo (f_idx s) 8) 0) && o_zupt (f_opt s) then
               if is_static (f_smooth s) then sensors_set (f_ins s) 8 else sensors_clear (f_ins s) 8
             else f_ins s) /\
  (zupt_due s = false -> f_kf t = f_kf s /\ f_flag t = f_flag s).
Proof.
rewrite /zupt_step /zupt_due. case: (~~ _) => /=; last by case=> <-.
case: (o_zupt _) => /=; last by case=> <-. case: (is_static _) => /=; last by case=> <-.
by move=> /(bindP _ _ _)[s1 /zero_velocity_frame[F I] [<-]]; rewrite I.
Qed.
Lemma nhc_step_spec s t : nhc_step s = Some t ->
  frame s t /\ f_ins t = (if nhc_due s then sensors_set (f_ins s) 16 else sensors_clear (f_ins s) 16) /\
  (nhc_due s = false -> f_kf t = f_kf s /\ f_flag t = f_flag s).
Proof.
rewrite /nhc_step -/(nhc_due s). case: (nhc_due s); last by case=> <-.
by move=> /(bindP _ _ _)[s1 /measure_nhc_frame[F I] [<-]]; rewrite I.
Qed.

Lemma feed_spec s t : feed s = Some t ->
  [/\ f_kf t = f_kf s, f_flag t = f_flag s, f_idx t = f_idx s, f_opt t = f_opt s & f_smooth t = f_smooth s] /\
  [/\ f_Q0 t = f_Q0 s, f_Xd t = f_Xd s, f_cnt t = f_cnt s, f_min t = f_min s &
      [/\ f_pheight t = f_pheight s, f_gheight t = f_gheight s & f_base t = f_base s]].
Proof. rewrite /feed; case: ifP => _; last by case=> <-. by move=> /(bindP _ _ _)[i _ [<-]]. Qed.
Lemma take_spec s :
  [/\ f_flag (take_estimate s) = (if Z.ltb 0 (f_flag s) then 0%Z else f_flag s),
      f_idx (take_estimate s) = f_idx s, f_opt (take_estimate s) = f_opt s,
      f_smooth (take_estimate s) = f_smooth s & f_min (take_estimate s) = f_min s] /\
  [/\ f_ins (take_estimate s) = f_ins s, f_cnt (take_estimate s) = f_cnt s & f_Q0 (take_estimate s) = f_Q0 s].
Proof. by rewrite /take_estimate; case: ifP. Qed.
Lemma propagate_spec s x t : propagate s x = Some t ->
  exists sm i phi, [/\ smooth_update (f_smooth s) x = Some sm, forward (f_ins s) x = Some i,
    transfer i (f_opt s) = Some phi &
    t = set_epoch s sm i (kf_predict (f_kf s) phi (process_noise phi (f_Q0 s) (s_dt i))) (u32 (Z.add (f_idx s) 1))].
Proof. by move=> /(bindP _ _ _)[sm E1 /(bindP _ _ _)[i E2 /(bindP _ _ _)[phi E3 [<-]]]]; exists sm, i, phi. Qed.

(** ** schedule *)
Lemma time_update_split s x t : time_update s x = Some t -> exists s1 s2 s3 s4,
  [/\ feed (take_estimate s) = Some s1, propagate s1 x = Some s2, zupt_step s2 = Some s3, nhc_step s3 = Some s4 &
      t = set_monitor s4 (u32 (Z.add (f_cnt s4) 1)) (f_min s4)].
Proof.
by move=> /(bindP _ _ _)[s1 h1 /(bindP _ _ _)[s2 h2 /(bindP _ _ _)[s3 h3 /(bindP _ _ _)[s4 h4 [<-]]]]]; exists s1, s2, s3, s4.
Qed.

Lemma time_update_counts s x t : time_update s x = Some t ->
  f_idx t = u32 (Z.add (f_idx s) 1) /\ f_opt t = f_opt s /\ smooth_update (f_smooth s) x = Some (f_smooth t).
Proof.
move=> /time_update_split[s1 [s2 [s3 [s4 [h1 h2 h3 h4 ->]]]]].
have [[_ t2 t3 t4 _] _] := take_spec s.
have [[_ _ a3 a4 a5] _] := feed_spec _ _ h1.
have [sm [i [phi [b1 _ _ b4]]]] := propagate_spec _ _ _ h2.
have [[_ [c1 [_ [_ [c2 [c3 _]]]]]] _] := zupt_step_spec _ _ h3.
have [[_ [d1 [_ [_ [d2 [d3 _]]]]]] _] := nhc_step_spec _ _ h4.
rewrite /= d1 d2 d3 c1 c2 c3 b4 /= a3 a4 t2 t3; split => //; split => //. by rewrite -b1 a5 t4.
Qed.
Lemma gnss_update_counts s g t : gnss_update s g = Some t -> f_idx t = f_idx s /\ f_opt t = f_opt s /\ f_smooth t = f_smooth s.
Proof.
case E: (gnss_check g); last by rewrite /gnss_update E => -[<-].
rewrite gnss_accepted // => /(bindP _ _ _)[k _ [<-]]. by [].
Qed.
Lemma velocity_update_counts s v t : velocity_update_f s v = Some t -> f_idx t = f_idx s /\ f_opt t = f_opt s /\ f_smooth t = f_smooth s.
Proof. rewrite /velocity_update_f; by case: o_nhc => /(bindP _ _ _)[k _ [<-]]. Qed.
Lemma height_update_counts s v t : height_update s v = Some t -> f_idx t = f_idx s /\ f_opt t = f_opt s /\ f_smooth t = f_smooth s.
Proof.
move=> /(bindP _ _ _)[s1 h]; case: ifP => // _ [<-] /=. move: h; case: ifP => _; last by case=> <-.
by move=> /(bindP _ _ _)[k _ [<-]].
Qed.
Lemma run_counts cs : forall s t, run_calls s cs = Some t -> (0 <= f_idx s < 4294967296)%Z ->
  f_idx t = u32 (Z.add (f_idx s) (epochs cs)) /\ f_opt t = f_opt s /\ smooth_run (f_smooth s) (samples cs) = Some (f_smooth t).
Proof.
elim: cs => [|c cs IH] s t /=.
  case=> <- hr. rewrite /epochs /u32 /= Z.add_0_r Z.mod_small //; lia.
move=> /(bindP _ _ _)[u hu hrun] hr.
have : f_idx u = (match c with CallImu _ => u32 (Z.add (f_idx s) 1) | _ => f_idx s end) /\ f_opt u = f_opt s /\
   smooth_run (f_smooth s) (match c with CallImu x => [:: x] | _ => [::] end) = Some (f_smooth u).
  move: hu; case: c => [x|g|v|v] /=.
  - by move=> /time_update_counts[-> [-> ->]].
  - by move=> /gnss_update_counts[-> [-> ->]].
  - by move=> /velocity_update_counts[-> [-> ->]].
  - by move=> /height_update_counts[-> [-> ->]].
move=> [ui [uo us]].
have ur : (0 <= f_idx u < 4294967296)%Z by rewrite ui; case: c {hu ui us} => [x|g|v|v] //; rewrite /u32; apply: Z.mod_pos_bound.
have [i1 [i2 i3]] := IH _ _ hrun ur. rewrite i1 i2 uo.
case: c ui us {hu} => [x|g|v|v] ui us; rewrite ui /epochs /=; (split; [|split]) => //.
- rewrite /u32 /= ?Zpos_P_of_succ_nat Zplus_mod_idemp_l; congr (_ mod _)%Z; rewrite /epochs; lia.
- move: us => /=; case: smooth_update => // sm [->]. exact: i3.
- by move: us => [->].
- by move: us => [->].
- by move: us => [->].
Qed.

Lemma u32_mod k d : (d = 8 \/ d = 32)%Z -> (u32 k mod d = k mod d)%Z.
Proof.
have E := Z.div_mod k 4294967296 ltac:(by []). rewrite /u32 => hd. set m := (k mod 4294967296)%Z in E *. set q := (k / 4294967296)%Z in E.
case: hd => ->.
- have -> : k = (m + (536870912 * q) * 8)%Z by lia. by rewrite Z_mod_plus_full.
- have -> : k = (m + (134217728 * q) * 32)%Z by lia. by rewrite Z_mod_plus_full.
Qed.

Lemma run_calls_app a : forall s b t, run_calls s (a ++ b)%list = Some t ->
  exists2 u, run_calls s a = Some u & run_calls u b = Some t.
Proof.
elim: a => [|c a IH] s b t /=; first by exists s.
move=> /(bindP _ _ _)[v hv /IH[u h1 h2]]. exists u => //. by rewrite hv.
Qed.

Lemma feed_flag s t : feed s = Some t -> f_flag t = f_flag s.
Proof. by move=> /feed_spec[[]]. Qed.
Lemma time_update_flag s x t : (0 <= f_flag s)%Z -> time_update s x = Some t -> (0 <= f_flag t)%Z.
Proof.
move=> hf /time_update_split[s1 [s2 [s3 [s4 [h1 h2 h3 h4 ->]]]]] /=.
have f1 : (0 <= f_flag s1)%Z.
  rewrite (feed_flag _ _ h1). have [[-> _ _ _ _] _] := take_spec s. by case: ifP.
have f2 : (0 <= f_flag s2)%Z by have [sm [i [phi [_ _ _ ->]]]] := propagate_spec _ _ _ h2.
have lor a b : (0 <= a)%Z -> (0 <= b)%Z -> (0 <= Z.lor a b)%Z by move=> ha hb; apply/Z.lor_nonneg.
have f3 : (0 <= f_flag s3)%Z.
  move: h3; rewrite /zupt_step; case: ifP => _; last by case=> <-. case: is_static; last by case=> <-.
  move=> /(bindP _ _ _)[u hu [<-]] /=. move: hu => /(bindP _ _ _)[k _]. case: o_zupta => [|[<-]]; last exact: lor.
  by case: (is_zero _) => // /(bindP _ _ _)[k2 _ [<-]]; apply: lor.
move: h4; rewrite /nhc_step; case: ifP => _; last by case=> <-.
move=> /(bindP _ _ _)[u hu [<-]] /=. move: hu => /(bindP _ _ _)[k _ [<-]]. exact: lor.
Qed.
Lemma do_call_flag s c t : (0 <= f_flag s)%Z -> do_call s c = Some t -> (0 <= f_flag t)%Z.
Proof.
have lor a b : (0 <= a)%Z -> (0 <= b)%Z -> (0 <= Z.lor a b)%Z by move=> ha hb; apply/Z.lor_nonneg.
case: c => [x|g|v|v] hf /=; first exact: time_update_flag.
- case E: (gnss_check g); last by rewrite /gnss_update E => -[<-].
  rewrite gnss_accepted // => /(bindP _ _ _)[k _ [<-]]. exact: lor.
- rewrite /velocity_update_f; case: o_nhc => /(bindP _ _ _)[k _ [<-]]; exact: lor.
- move=> /(bindP _ _ _)[s1 h]; case: ifP => // _ [<-] /=. move: h; case: ifP => _; last by case=> <-.
  move=> /(bindP _ _ _)[k _ [<-]]; exact: lor.
Qed.
Lemma run_flag cs : forall s t, (0 <= f_flag s)%Z -> run_calls s cs = Some t -> (0 <= f_flag t)%Z.
Proof.
elim: cs => [|c cs IH] s t h /=; first by case=> <-. move=> /(bindP _ _ _)[u hu]. apply: IH. exact: do_call_flag hu.
Qed.

Lemma time_update_flags s x t : (0 <= f_flag s)%Z -> time_update s x = Some t ->
  bit (f_ins t) 4 = nhc_due t /\
  (o_zupt (f_opt t) = true -> (f_idx t mod 8 <> 0)%Z -> bit (f_ins t) 3 = is_static (f_smooth t)) /\
  (zupt_due t = false -> nhc_due t = false ->
   f_flag t = 0%Z /\ exists2 phi, transfer (f_ins t) (f_opt t) = Some phi &
     kP (f_kf t) = phi *m kP (f_kf s) *m phi^T + process_noise phi (f_Q0 s) (s_dt (f_ins t))).
Proof.
move=> hf h. have [_ [ho _]] := time_update_counts _ _ _ h.
move: h => /time_update_split[s1 [s2 [s3 [s4 [h1 h2 h3 h4 E]]]]].
have [[a1 a2 a3 a4 a5] [aq _]] := feed_spec _ _ h1.
have [[t1 _ _ _ _] [_ _ tq]] := take_spec s.
have [sm [i [phi [b1 b2 b3 b4]]]] := propagate_spec _ _ _ h2.
have [[_ [c1 [_ [_ [c2 [c3 _]]]]]] [ci c4]] := zupt_step_spec _ _ h3.
have [[_ [d1 [_ [_ [d2 [d3 _]]]]]] [di d4]] := nhc_step_spec _ _ h4.
have e1 : zupt_due t = zupt_due s2 by rewrite /zupt_due E /= d1 d2 d3 c1 c2 c3.
have e2 : nhc_due t = nhc_due s3 by rewrite /nhc_due E /= d1 d2.
have kP_take : kP (f_kf (take_estimate s)) = kP (f_kf s) by rewrite /take_estimate; case: ifP.
rewrite e1 e2 E /= d1 d2 d3 c1 c2 c3. split; [|split].
- rewrite di. case: (nhc_due s3); [rewrite (set_bit _ 4)|rewrite (clear_bit _ 4)] => //.
- move=> hz hi. rewrite di.
  have -> : bit (if nhc_due s3 then sensors_set (f_ins s3) 16 else sensors_clear (f_ins s3) 16) 3 = bit (f_ins s3) 3.
    by case: (nhc_due s3); [rewrite (set_bit _ 4)|rewrite (clear_bit _ 4)].
  rewrite ci hz. have -> : Z.eqb (f_idx s2 mod 8) 0 = false by apply/Z.eqb_neq. rewrite /=.
  by case: (is_static _); [rewrite (set_bit _ 3)|rewrite (clear_bit _ 3)].
- move=> z1 z2. have [k3 f3] := c4 z1. have [k4 f4] := d4 z2.
  rewrite k4 k3 f4 f3 b4 /= a2 t1. split; first by case: ifP => // /Z.ltb_ge; lia.
  exists phi.
  + rewrite di ci b4 /= -/(f_ins _) a4.
    have T j k m : transfer (ins_nav j (nav_info (s_nav j) k m)) = transfer j by [].
    rewrite a4 in b3. rewrite -b3. by do ?[case: ifP => _]; rewrite /transfer.
  + rewrite a1 aq tq kP_take di ci b4 /=. by do ?[case: ifP => _].
Qed.

Lemma initialize_start s0 nav o s : initialize s0 nav o = Some s ->
  f_idx s = 0%Z /\ f_opt s = o /\ f_flag s = f_flag s0 /\ f_smooth s = f_smooth s0.
Proof. rewrite /initialize; case: ifP => // _ [<-]. by []. Qed.

Lemma schedule s0 nav o s cs x t : (0 <= f_flag s0)%Z -> initialize s0 nav o = Some s ->
  run_calls s (cs ++ [:: CallImu x])%list = Some t ->
  let k := (epochs cs + 1)%Z in
  exists sm, smooth_run (f_smooth s0) (samples cs ++ [:: x])%list = Some sm /\
  (sensor t 4 = [&& Z.eqb (k mod 32) 1, o_nhc o & ~~ o_odo o]) /\
  (o_zupt o = true -> (k mod 8 <> 0)%Z -> sensor t 3 = is_static sm) /\
  ([&& ~~ Z.eqb (k mod 8) 0, o_zupt o & is_static sm] = false -> [&& Z.eqb (k mod 32) 1, o_nhc o & ~~ o_odo o] = false ->
   f_flag t = 0%Z /\ exists u phi, [/\ run_calls s cs = Some u, transfer (f_ins t) o = Some phi &
     kP (f_kf t) = phi *m kP (f_kf u) *m phi^T + process_noise phi (f_Q0 u) (s_dt (f_ins t))]).
Proof.
move=> hf hi hr k. have [i1 [i2 [i3 i4]]] := initialize_start _ _ _ _ hi.
have fs : (0 <= f_flag s)%Z by rewrite i3.
have [c1 [c2 c3]] := run_counts _ _ _ hr ltac:(by rewrite i1).
have ek : epochs (cs ++ [:: CallImu x])%list = k.
  rewrite /epochs /k. elim: cs {hr c1 c3 k} => [|c cs IH] //=. case: c => [y|g|v|v] //=; move: IH; rewrite /epochs; lia.
have es : samples (cs ++ [:: CallImu x])%list = (samples cs ++ [:: x])%list.
  elim: cs {hr c1 c3 k ek} => [|c cs IH] //=. by case: c => [y|g|v|v] //=; rewrite IH.
rewrite ek i1 Z.add_0_l in c1. rewrite es i4 in c3. rewrite i2 in c2.
have m8 : (f_idx t mod 8 = k mod 8)%Z by rewrite c1; apply: u32_mod; left.
have m32 : (f_idx t mod 32 = k mod 32)%Z by rewrite c1; apply: u32_mod; right.
have [u hu] := run_calls_app _ _ _ _ hr. rewrite /= => /(bindP _ _ _)[v hv [E]]; subst v.
have [b1 [b2 b3]] := time_update_flags _ _ _ (run_flag _ _ _ fs hu) hv.
exists (f_smooth t). split => //. move: b1 b2 b3; rewrite /nhc_due /zupt_due m8 m32 c2 => b1 b2 b3.
split => //. split => //. move=> z1 z2. have [f0 [phi p1 p2]] := b3 z1 z2. split => //. by exists u, phi.
Qed.
