(** Barometric heights; corrections that get lost. *)
From Coq Require Import Reals ZArith List Lia Lra.
From mathcomp Require Import all_ssreflect ssralg matrix.
From Verif Require Import RealMath EarthModel ConvertModel SmoothModel InsModel InsProofs InsRest InsRest2 FusionBase Rfield KalmanModel KalmanSpec KalmanProofs FusionModel FusionSpec FusionProofs FusionFeed FusionCov FusionRest FusionFix.
Import GRing.Theory.
Local Open Scope ring_scope.

Definition refs (acc : option R * list R) (s : fusion) : Prop :=
  match fst acc with
  | Some gh => [/\ f_base s = Z.add 1 (Z.of_nat (length (snd acc))), f_gheight s = gh &
                   snd acc <> nil -> f_pheight s = List.hd (IZR 0) (snd acc)]
  | None => [/\ f_base s = Z.of_nat (length (snd acc)), f_gheight s = int32_min &
                (1 < length (snd acc))%coq_nat -> f_pheight s = List.nth 1 (snd acc) (IZR 0)]
  end.

Lemma time_update_heights s x t : time_update s x = Some t ->
  [/\ f_pheight t = f_pheight s, f_gheight t = f_gheight s & f_base t = f_base s].
Proof.
move=> /time_update_split[s1 [s2 [s3 [s4 [h1 h2 h3 h4 ->]]]]] /=.
have [[_ [_ [_ [_ [_ [_ [_ [_ [d1 [d2 d3]]]]]]]]]] _] := nhc_step_spec _ _ h4.
have [[_ [_ [_ [_ [_ [_ [_ [_ [c1 [c2 c3]]]]]]]]]] _] := zupt_step_spec _ _ h3.
have [sm [i [phi [_ _ _ b4]]]] := propagate_spec _ _ _ h2.
have [_ [_ _ _ _ [a1 a2 a3]]] := feed_spec _ _ h1.
rewrite d1 d2 d3 c1 c2 c3 b4 /= a1 a2 a3. rewrite /take_estimate. by case: ifP.
Qed.

Lemma height_step s v t : height_update s v = Some t ->
  [/\ f_base t = Z.add (f_base s) 1, f_gheight t = f_gheight s & f_pheight t = if Z.eqb (f_base s) 1 then v else f_pheight s].
Proof.
move=> /(bindP _ _ _)[s1 h]; case: ifP => // _ [<-] /=. split => //. move: h; case: ifP => _; last by case=> <-.
by move=> /(bindP _ _ _)[k _ [<-]].
Qed.

Lemma length_snoc (A : Type) (l : list A) x : length (l ++ [:: x])%list = S (length l).
Proof. by rewrite app_length /= Nat.add_comm. Qed.

Lemma do_refs c s t acc : do_call s c = Some t -> refs acc s -> refs (since_fix [:: c] acc) t.
Proof.
case: c => [x|g|v|v] /=.
- move=> /time_update_heights[e1 e2 e3]. by rewrite /refs e1 e2 e3.
- rewrite -mode_rule. case E: (gnss_check g).
    rewrite gnss_accepted // => /(bindP _ _ _)[k _ [<-]] _. by split.
  by rewrite /gnss_update E => -[<-].
- rewrite /velocity_update_f; case: o_nhc => /(bindP _ _ _)[k _ [<-]] //.
- move=> /height_step[e1 e2 e3]. case: acc => [[gh|] hs]; rewrite /refs; cbn [fst snd since_fix]; move=> [h1 h2 h3]; rewrite e1 e2 e3 h1 length_snoc; split=> [|//|].
  + lia.
  + move=> _. case: hs h1 h3 => [|a l] h1 h3; first by []. rewrite h3 //; case: Z.eqb_spec => // E; move: E; cbn [length]; lia.
  + lia.
  + case: hs h1 h3 => [|a [|b l]] h1 h3 hl.
    * exfalso; move: hl; cbn [length]; lia.
    * by [].
    * rewrite h3; last by cbn [length]; lia. case: Z.eqb_spec => // E; move: E; cbn [length]; lia.
Qed.
Lemma run_refs cs : forall s t acc, run_calls s cs = Some t -> refs acc s -> refs (since_fix cs acc) t.
Proof.
elim: cs => [|c cs IH] s t acc /=; first by case=> <-.
move=> /(bindP _ _ _)[u hu hrun] hr. have h1 := do_refs _ _ _ _ hu hr.
have := IH _ _ _ hrun h1. by case: c {hu h1}.
Qed.
Lemma start_refs i0 o0 nav o s : initialize (fusion_new i0 o0) nav o = Some s -> refs (None, nil) s.
Proof. rewrite /initialize; case: ifP => // _ [<-]; split => //. cbn [snd length]; lia. Qed.

(** what one height sample does *)
Definition height_z (s : fusion) (measured : R) : R :=
  let pos := n_pos (s_nav (f_ins s)) in vz (pos_z (f_ins s) (o_lb_gnss (f_opt s)) (V (vx pos) (vy pos) measured)).
Definition height_fused (s t : fusion) (measured : R) : Prop :=
  [/\ sensor t 7 = true, (0 < f_flag t)%Z &
      kf_update (f_kf s) (row_of (H_pos s) 2) (one_by_one (height_z s measured))
        (one_by_one (Rmult (o_zupta_std (f_opt s)) (o_zupta_std (f_opt s)))) = Some (f_kf t)].
Definition height_ignored (s t : fusion) : Prop :=
  [/\ sensor t 7 = false, f_flag t = f_flag s, f_kf t = f_kf s &
      f_Xd t = f_Xd s /\ f_iter t = f_iter s /\ n_pos (s_nav (f_ins t)) = n_pos (s_nav (f_ins s))].

Lemma lor_pos a : (0 <= a)%Z -> (0 < Z.lor a FLAG_HEIGHT)%Z.
Proof.
move=> h. have h1 : (0 <= Z.lor a FLAG_HEIGHT)%Z by apply/Z.lor_nonneg.
have : Z.lor a FLAG_HEIGHT <> 0%Z by move=> /Z.lor_eq_0_iff[]. lia.
Qed.

Lemma height_effect s v t : (0 <= f_flag s)%Z -> height_update s v = Some t ->
  let p := if Z.eqb (f_base s) 1 then v else f_pheight s in
  if Z.ltb 4 (f_base s) then height_fused s t (Rminus (Rplus (f_gheight s) v) p) else height_ignored s t.
Proof.
move=> hf /(bindP _ _ _)[s1 h]; case: ifP => // _ [<-]. move: h. cbv zeta. case: ifP => hb; last first.
  case=> <-. split => //. have := clear_bit (f_ins s) 7 7 erefl. by [].
move=> /(bindP _ _ _)[k hk [<-]]. split => //=.
- have := set_bit (f_ins s) 7 7 erefl. by [].
- exact: lor_pos.
Qed.

Lemma height_after_fix i0 o0 nav o s cs u gh hs v t : initialize (fusion_new i0 o0) nav o = Some s ->
  run_calls s cs = Some u -> since_fix cs (None, nil) = (Some gh, hs) -> height_update u v = Some t ->
  if Nat.leb 4 (length hs) then height_fused u t (Rplus gh (Rminus v (List.hd (IZR 0) hs))) else height_ignored u t.
Proof.
move=> hi hr hs' ht. have := run_refs _ _ _ _ hr (start_refs _ _ _ _ _ hi). rewrite hs' /refs; cbn [fst snd]; move=> [r1 r2 r3].
have [_ [_ [i3 _]]] := initialize_start _ _ _ _ hi.
have fu : (0 <= f_flag u)%Z by apply: run_flag hr; rewrite i3.
have := height_effect _ _ _ fu ht. cbv zeta.
case: Nat.leb_spec => L.
  have -> : Z.ltb 4 (f_base u) = true by apply/Z.ltb_lt; rewrite r1; lia.
  have -> : Z.eqb (f_base u) 1 = false by apply/Z.eqb_neq; rewrite r1; lia.
  rewrite r2 r3; last by move=> E; move: L; rewrite E /=; lia.
  have -> : Rminus (Rplus gh v) (List.hd (IZR 0) hs) = Rplus gh (Rminus v (List.hd (IZR 0) hs)) by rewrite /Rminus Rplus_assoc.
  by [].
have -> : Z.ltb 4 (f_base u) = false by apply/Z.ltb_ge; rewrite r1; lia.
by [].
Qed.
(** without any fix *)
Lemma height_without_fix i0 o0 nav o s cs u hs v t : initialize (fusion_new i0 o0) nav o = Some s ->
  run_calls s cs = Some u -> since_fix cs (None, nil) = (None, hs) -> height_update u v = Some t ->
  if Nat.leb 5 (length hs) then height_fused u t (Rplus int32_min (Rminus v (List.nth 1 hs (IZR 0)))) else height_ignored u t.
Proof.
move=> hi hr hs' ht. have := run_refs _ _ _ _ hr (start_refs _ _ _ _ _ hi). rewrite hs' /refs; cbn [fst snd]; move=> [r1 r2 r3].
have [_ [_ [i3 _]]] := initialize_start _ _ _ _ hi.
have fu : (0 <= f_flag u)%Z by apply: run_flag hr; rewrite i3.
have := height_effect _ _ _ fu ht. cbv zeta.
case: Nat.leb_spec => L.
  have -> : Z.ltb 4 (f_base u) = true by apply/Z.ltb_lt; rewrite r1; lia.
  have -> : Z.eqb (f_base u) 1 = false by apply/Z.eqb_neq; rewrite r1; lia.
  rewrite r2 r3; last lia.
  have -> : Rminus (Rplus int32_min v) (List.nth 1 hs (IZR 0)) = Rplus int32_min (Rminus v (List.nth 1 hs (IZR 0))) by rewrite /Rminus Rplus_assoc.
  by [].
have -> : Z.ltb 4 (f_base u) = false by apply/Z.ltb_ge; rewrite r1; lia.
by [].
Qed.

(** a new measurement discards what is left of the previous correction *)
Lemma remainder_lost s x y n : (0 < f_flag s)%Z -> time_update (set_pending s y n) x = time_update s x.
Proof.
move=> h. rewrite /time_update. have -> : take_estimate (set_pending s y n) = take_estimate s; last by [].
rewrite /take_estimate /=. have -> : Z.ltb 0 (f_flag s) = true by apply/Z.ltb_lt. by [].
Qed.
(** a second fix replaces the estimate of the first *)
Lemma second_fix_replaces s g1 g2 u t : gnss_check g1 = true -> gnss_check g2 = true ->
  gnss_update s g1 = Some u -> gnss_update u g2 = Some t ->
  pos_z (f_ins s) (o_lb_gnss (f_opt s)) (fix_place g2) = vzero -> kX (f_kf t) = 0.
Proof.
move=> h1 h2. rewrite gnss_accepted // => /(bindP _ _ _)[k1 _ [<-]]. rewrite gnss_accepted // => /(bindP _ _ _)[k2 hk [<-]] hz /=.
have [_ [-> _]] := update_some _ _ _ _ _ _ _ hk.
set z := z_pos _ _. have -> : z = 0; last by rewrite mulmx0.
apply: (column_zero 3 (fun _ => pos_z (f_ins s) (o_lb_gnss (f_opt s)) (fix_place g2))) => _. exact: hz.
Qed.

Lemma height_defined s v k : Z.ltb 4 (f_base s) = true -> Z.eqb (f_base s) 1 = false -> Z.ltb int_max (Z.add (f_base s) 1) = false ->
  kf_update (f_kf s) (row_of (H_pos s) 2) (one_by_one (height_z s (Rminus (Rplus (f_gheight s) v) (f_pheight s))))
    (one_by_one (Rmult (o_zupta_std (f_opt s)) (o_zupta_std (f_opt s)))) = Some k ->
  exists t, height_update s v = Some t /\ sensor t 7 = true.
Proof.
move=> h1 h2 h3. rewrite /height_z /H_pos /height_update h1 h2 h3. cbv zeta => ->. cbn [bind].
eexists; split; first reflexivity. have := set_bit (f_ins s) 7 7 erefl. by [].
Qed.
