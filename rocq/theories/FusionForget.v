(** Rejected fixes. *)
From Coq Require Import Reals ZArith List Lia Lra.
From mathcomp Require Import all_ssreflect ssralg matrix.
From Verif Require Import RealMath EarthModel ConvertModel SmoothModel InsModel FusionBase Rfield KalmanModel FusionModel FusionSpec FusionProofs.
Import GRing.Theory.
Local Open Scope ring_scope.

Definition blank_ins (i : ins) : ins := ins_nav i (nav_info (s_nav i) 0 0).

Definition lift {A B : Type} (rel : A -> B -> Prop) (o : option A) (o' : option B) : Prop :=
  match o, o' with Some a, Some b => rel a b | None, None => True | _, _ => False end.
Lemma lift_bind {A B C D : Type} (rel : A -> B -> Prop) (rel' : C -> D -> Prop) o o' f g :
  lift rel o o' -> (forall a b, rel a b -> lift rel' (f a) (g b)) -> lift rel' (bind o f) (bind o' g).
Proof. case: o => [a|]; case: o' => [b|] //= h H. exact: H. Qed.
Lemma lift_same {A C D : Type} (rel' : C -> D -> Prop) (o : option A) f g :
  (forall a, lift rel' (f a) (g a)) -> lift rel' (bind o f) (bind o g).
Proof. by case: o => [a|] H /=. Qed.

(** equal up to the sensor word and the mode *)
Definition eqi (i j : ins) : Prop := blank_ins i = blank_ins j.
Definition forget (s : fusion) : fusion := set_ins s (blank_ins (f_ins s)).
Definition eqf (s t : fusion) : Prop := forget s = forget t.

Lemma eqi_case i j : eqi i j -> exists a b, j = ins_nav i (nav_info (s_nav i) a b).
Proof.
case: i j => [[? ? ? ? ? ? ? ? ? ? ? ? ? ? ? ? ? ? ? ? ?] ? ? ? ? ? ? ? ?] [[? ? ? ? ? ? ? ? ? ? ? ? ? ? ? ? ? ? a b ?] ? ? ? ? ? ? ? ?].
rewrite /eqi /blank_ins /ins_nav /nav_info /= => -[*]; subst. by exists a, b.
Qed.

Lemma extrapolate_eqi i j : eqi i j -> lift eqi (extrapolate i) (extrapolate j).
Proof. move=> /eqi_case[a [b ->]]. rewrite /extrapolate /=. do 3!(apply: lift_same => ?). by []. Qed.
Lemma velocity_eqi i j x y : eqi i j -> lift eqi (velocity_update i x y) (velocity_update j x y).
Proof.
move=> /eqi_case[a [b ->]]. rewrite /velocity_update /=. case: Req_EM_T => // _. apply: lift_same => ?. by [].
Qed.
Lemma position_eqi i j : eqi i j -> lift eqi (position_update i) (position_update j).
Proof. move=> /eqi_case[a [b ->]]. rewrite /position_update /=. do 2!(apply: lift_same => ?). by []. Qed.
Lemma atti_eqi i j x : eqi i j -> eqi (atti_update i x) (atti_update j x).
Proof. by move=> /eqi_case[a [b ->]]. Qed.
Lemma forward_eqi i j x : eqi i j -> lift eqi (forward i x) (forward j x).
Proof.
move=> h. rewrite /forward. have [a [b e]] := eqi_case _ _ h.
have -> : compensate j (i_acce x) (n_ab (s_nav j)) (n_as (s_nav j)) = compensate i (i_acce x) (n_ab (s_nav i)) (n_as (s_nav i)) by rewrite e.
have -> : compensate j (i_gyro x) (n_gb (s_nav j)) (n_gs (s_nav j)) = compensate i (i_gyro x) (n_gb (s_nav i)) (n_gs (s_nav i)) by rewrite e.
apply: (lift_bind eqi); last by move=> ? ? /eqi_case[? [? ->]].
rewrite /mechanise. apply: (lift_bind eqi); first exact: extrapolate_eqi. move=> ? ? h1.
apply: (lift_bind eqi); first exact: velocity_eqi. move=> ? ? h2.
apply: (lift_bind eqi); first exact: position_eqi. move=> ? ? h3. exact: atti_eqi.
Qed.
Lemma feedback_eqi i j x : eqi i j -> lift eqi (feedback i x) (feedback j x).
Proof. move=> /eqi_case[a [b ->]]. rewrite /feedback /=. case: ifP => // _. apply: lift_same => ?. by []. Qed.

Lemma eqf_case s t : eqf s t -> t = set_ins s (f_ins t) /\ eqi (f_ins s) (f_ins t).
Proof.
move=> H. split; last exact: (f_equal f_ins H).
have := (f_equal f_kf H, f_equal f_Q0 H, f_equal f_opt H, f_equal f_flag H, f_equal f_Xd H, f_equal f_iter H, f_equal f_idx H,
  (f_equal f_smooth H, f_equal f_cnt H, f_equal f_min H, f_equal f_pheight H, f_equal f_gheight H, f_equal f_base H)).
move=> {H}. case: s t => [? ? ? ? ? ? ? ? ? ? ? ? ? ?] [? ? ? ? ? ? ? ? ? ? ? ? ? ?] /=.
by move=> [[[[[[[-> ->] ->] ->] ->] ->] ->] [[[[[-> ->] ->] ->] ->] ->]].
Qed.
Lemma eqf_set s i j : eqi i j -> eqf (set_ins s i) (set_ins s j).
Proof. by rewrite /eqf /forget /= => ->. Qed.
Lemma eqf_intro s t : t = set_ins s (f_ins t) -> eqi (f_ins s) (f_ins t) -> eqf s t.
Proof. move=> -> /= h. case: s h => *. exact: (eqf_set (Fu _ _ _ _ _ _ _ _ _ _ _ _ _ _)). Qed.

Lemma take_eqf s t : eqf s t -> eqf (take_estimate s) (take_estimate t).
Proof. move=> /eqf_case[-> h]. rewrite /take_estimate /=. case: ifP => _; exact: eqf_intro. Qed.
Lemma feed_eqf s t : eqf s t -> lift eqf (feed s) (feed t).
Proof.
move=> /eqf_case[-> h]. rewrite /feed /=. case: ifP => _; last exact: eqf_intro.
apply: (lift_bind eqi); first exact: feedback_eqi. move=> i j hij. exact: eqf_intro.
Qed.
Lemma propagate_eqf s t x : eqf s t -> lift eqf (propagate s x) (propagate t x).
Proof.
move=> /eqf_case[-> h]. rewrite /propagate /=. apply: lift_same => sm.
apply: (lift_bind eqi); first exact: forward_eqi. move=> i j hij.
have -> : transfer j (f_opt s) = transfer i (f_opt s) by have [a [b ->]] := eqi_case _ _ hij.
have -> : s_dt j = s_dt i by have [a [b ->]] := eqi_case _ _ hij.
apply: lift_same => phi. exact: eqf_intro.
Qed.
Lemma zero_velocity_eqf s t : eqf s t -> lift eqf (zero_velocity s) (zero_velocity t).
Proof.
move=> /eqf_case[-> h]. have [a [b e]] := eqi_case _ _ h. rewrite /zero_velocity /= e /=.
apply: lift_same => k. case: o_zupta; last exact: eqf_intro.
case: (is_zero _) => //. apply: lift_same => k2. exact: eqf_intro.
Qed.
Lemma eqi_bits i j a : eqi i j -> eqi (sensors_set i a) (sensors_set j a) /\ eqi (sensors_clear i a) (sensors_clear j a) /\
  forall m, eqi (mode_set i m) (mode_set j m).
Proof. by move=> /eqi_case[? [? ->]]. Qed.
Lemma eqi_word i a : eqi i (sensors_set i a) /\ eqi i (sensors_clear i a) /\ forall m, eqi i (mode_set i m).
Proof. by []. Qed.
Lemma zupt_eqf s t : eqf s t -> lift eqf (zupt_step s) (zupt_step t).
Proof.
move=> H; have [e h] := eqf_case _ _ H. rewrite /zupt_step. have -> : f_idx t = f_idx s by rewrite e.
have -> : f_opt t = f_opt s by rewrite e. have -> : f_smooth t = f_smooth s by rewrite e.
case: ifP => _ //. case: is_static; last first.
  rewrite e. apply: eqf_intro; [by []|exact: (proj1 (proj2 (eqi_bits _ _ SENSOR_ZUPT h)))].
apply: (lift_bind eqf); first exact: zero_velocity_eqf. move=> u v /eqf_case[-> hu]. apply: eqf_intro; [by []|exact: (proj1 (eqi_bits _ _ SENSOR_ZUPT hu))].
Qed.
Lemma nhc_eqf s t : eqf s t -> lift eqf (nhc_step s) (nhc_step t).
Proof.
move=> H; have [e h] := eqf_case _ _ H. rewrite /nhc_step. have -> : f_idx t = f_idx s by rewrite e.
have -> : f_opt t = f_opt s by rewrite e.
case: ifP => _; last first.
  rewrite e. apply: eqf_intro; [by []|exact: (proj1 (proj2 (eqi_bits _ _ SENSOR_NHC h)))].
apply: (lift_bind eqf); last first.
  move=> u v /eqf_case[-> hu]. apply: eqf_intro; [by []|exact: (proj1 (eqi_bits _ _ SENSOR_NHC hu))].
rewrite /measure_nhc. have [a [b e']] := eqi_case _ _ h. rewrite e /= e' /=. apply: lift_same => k. exact: eqf_intro.
Qed.
Lemma time_eqf s t x : eqf s t -> lift eqf (time_update s x) (time_update t x).
Proof.
move=> h. rewrite /time_update. apply: (lift_bind eqf); first exact/feed_eqf/take_eqf. move=> ? ? h1.
apply: (lift_bind eqf); first exact: propagate_eqf. move=> ? ? h2.
apply: (lift_bind eqf); first exact: zupt_eqf. move=> ? ? h3.
apply: (lift_bind eqf); first exact: nhc_eqf. move=> u v /eqf_case[-> hu]. exact: eqf_intro.
Qed.
Lemma gnss_eqf s t g : eqf s t -> lift eqf (gnss_update s g) (gnss_update t g).
Proof.
move=> /eqf_case[-> h]. have [a [b e]] := eqi_case _ _ h. rewrite /gnss_update. case: ifP => _; last first.
  rewrite e. exact: eqf_intro.
rewrite /measure_pos /= e /=. apply: (lift_bind eqf); last first.
  move=> u v /eqf_case[-> hu]. exact: eqf_intro.
apply: lift_same => k. apply: eqf_intro => //=.
Qed.
Lemma vel_eqf s t v : eqf s t -> lift eqf (velocity_update_f s v) (velocity_update_f t v).
Proof.
move=> /eqf_case[-> h]. have [a [b e]] := eqi_case _ _ h. rewrite /velocity_update_f /= e /=. case: o_nhc; apply: lift_same => k; exact: eqf_intro.
Qed.
Lemma height_eqf s t v : eqf s t -> lift eqf (height_update s v) (height_update t v).
Proof.
move=> /eqf_case[-> h]. have [a [b e]] := eqi_case _ _ h. rewrite /height_update /= e /=. 
apply: (lift_bind eqf); last first.
  move=> u w /eqf_case[-> hu]. case: ifP => // _. exact: eqf_intro.
case: ifP => _; last exact: eqf_intro. apply: lift_same => k. exact: eqf_intro.
Qed.
Lemma run_eqf cs : forall s t, eqf s t -> lift eqf (run_calls s cs) (run_calls t cs).
Proof.
elim: cs => [|c cs IH] s t h //=. apply: (lift_bind eqf); last exact: IH.
case: c => [x|g|v|v] /=; [exact: time_eqf|exact: gnss_eqf|exact: vel_eqf|exact: height_eqf].
Qed.

Lemma rejected_forgotten s g cs1 cs2 : gnss_check g = false ->
  Datatypes.option_map forget (run_calls s (cs1 ++ CallGnss g :: cs2)%list) = Datatypes.option_map forget (run_calls s (cs1 ++ cs2)%list).
Proof.
move=> hg. elim: cs1 s => [|c cs1 IH] s /=; last first.
  case: (do_call s c) => //=.
rewrite /gnss_update hg /=.
have := run_eqf cs2 (set_ins s (mode_set (sensors_clear (f_ins s) SENSOR_GNSS) MODE_INVALID)) s erefl.
case: (run_calls _ cs2) => [u|]; case: (run_calls s cs2) => [v|] //=. by rewrite /eqf => ->.
Qed.
Lemma rejected_flags s g : gnss_check g = false -> exists2 t, gnss_update s g = Some t &
  [/\ forget t = forget s, sensor t 1 = false, n_gnss_mode (s_nav (f_ins t)) = MODE_INVALID &
      forall b, b <> 1%N -> sensor t b = sensor s b].
Proof.
move=> hg. rewrite /gnss_update hg. eexists; first reflexivity. split => //.
  have := clear_bit (f_ins s) 1 1 erefl. by [].
move=> b hb. have := clear_bit (f_ins s) 1 b erefl. rewrite /sensor -/(bit _ _) /=.
have -> : (b != 1%N) = true by apply/eqP. by [].
Qed.
