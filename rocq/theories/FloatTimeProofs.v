From Coq Require Import Reals ZArith List Bool Lia Lra.
From Flocq Require Import Core Relative Sterbenz.
From Verif Require Import FloatSpec FloatOutageModel FloatOutageProofs FloatTimeModel FloatTimeSpec.
Import ListNotations.
Open Scope R_scope.

#[local] Instance q53 : Prec_gt_0 53 := eq_refl.
#[local] Instance q24 : Prec_gt_0 24 := eq_refl.

Definition uu : R := bpow radix2 (-53).
Lemma uu_val : uu = / 9007199254740992.
Proof. reflexivity. Qed.

Lemma rn_err x B : Rabs x <= B -> bpow radix2 (-1022) <= B -> Rabs (rn x - x) <= uu * B.
Proof.
  intros Hx HB. unfold rn. destruct (Rle_or_lt (bpow radix2 (-1022)) (Rabs x)) as [H|H].
  - eapply Rle_trans. { apply (relative_error_N_FLT radix2 (-1074) 53 eq_refl); exact H. }
    change (- (53) + 1)%Z with (-52)%Z.
    replace (/ 2 * bpow radix2 (-52)) with uu.
    { apply Rmult_le_compat_l; [apply bpow_ge_0|exact Hx]. }
    unfold uu. change (/ 2) with (bpow radix2 (-1)). rewrite <- bpow_plus. reflexivity.
  - eapply Rle_trans; [apply error_le_half_ulp; apply FLT_exp_valid; exact q53|].
    rewrite ulp_FLT_small.
    + change (/ 2) with (bpow radix2 (-1)). rewrite <- bpow_plus.
      apply Rle_trans with (uu * bpow radix2 (-1022)).
      * unfold uu. rewrite <- bpow_plus. right. reflexivity.
      * apply Rmult_le_compat_l; [apply bpow_ge_0|exact HB].
    + exact q53.
    + eapply Rlt_trans; [exact H|]. apply bpow_lt. lia.
Qed.

Lemma diff_exact x y : b64 x -> b64 y -> y / 2 <= x <= 2 * y -> rn (x - y) = x - y.
Proof.
  intros Hx Hy H. apply rn_exact. apply sterbenz; auto.
  - apply FLT_exp_valid. exact q53.
  - apply FLT_exp_monotone.
Qed.

Lemma abs_of x a : Rabs x <= a -> - a <= x <= a.
Proof. intro H. split; [apply Ropp_le_cancel; rewrite Ropp_involutive; eapply Rle_trans; [|exact H]; rewrite <- Rabs_Ropp; apply Rle_abs|eapply Rle_trans; [apply Rle_abs|exact H]]. Qed.
Lemma abs_to x a : - a <= x <= a -> Rabs x <= a.
Proof. intro H. apply Rabs_le. exact H. Qed.

(** one step of the rounded running mean *)
Lemma mean_step D a d S n : bpow radix2 (-1022) <= D -> 1 <= n -> n <= 4294967296 ->
  Rabs d <= D -> Rabs S <= (n - 1) * D ->
  Rabs ((n - 1) * a - S) <= 7 / 2 * uu * D * ((n - 1) * n) -> (n = 1 -> a = 0) ->
  Rabs (n * rn (rn (rn (a * (n - 1)) + d) / n) - (S + d)) <= 7 / 2 * uu * D * (n * (n + 1)).
Proof.
  intros HD Hn Hn2 Hd HS HE H1.
  assert (D0 : 0 < D) by (eapply Rlt_le_trans; [apply (bpow_gt_0 radix2 (-1022))|exact HD]).
  assert (U := uu_val). assert (U0 : 0 < uu) by (rewrite U; lra).
  assert (Hbig : 7 / 2 * uu * n <= 1 / 1000) by (rewrite U; lra).
  set (m := a * (n - 1)) in *.
  apply abs_of in Hd. apply abs_of in HS. apply abs_of in HE.
  assert (P0 : 0 <= (n - 1) * D) by (apply Rmult_le_pos; lra).
  assert (Q : 7 / 2 * uu * D * ((n - 1) * n) <= (n - 1) * D * (1 / 1000)).
  { replace (7 / 2 * uu * D * ((n - 1) * n)) with ((n - 1) * D * (7 / 2 * uu * n)) by ring.
    apply Rmult_le_compat_l; assumption. }
  assert (nD : D <= n * D). { replace D with (1 * D) at 1 by ring. apply Rmult_le_compat_r; lra. }
  assert (Hm : - (1.001 * ((n - 1) * D)) <= m <= 1.001 * ((n - 1) * D)).
  { unfold m. replace (a * (n - 1)) with ((n - 1) * a) by ring. lra. }
  assert (Em : Rabs (rn m - m) <= uu * (2 * (n * D))).
  { apply rn_err; [apply abs_to; lra|lra]. }
  set (m' := rn m) in *. apply abs_of in Em.
  assert (uB : uu * (2 * (n * D)) <= n * D * (1 / 1000)).
  { replace (uu * (2 * (n * D))) with (n * D * (2 * uu)) by ring. apply Rmult_le_compat_l; lra. }
  assert (Es : Rabs (rn (m' + d) - (m' + d)) <= uu * (2 * (n * D))).
  { apply rn_err; [apply abs_to; lra|lra]. }
  set (s := rn (m' + d)) in *. apply abs_of in Es.
  assert (Hs : - (1.1 * (n * D)) <= s <= 1.1 * (n * D)) by lra.
  assert (Ea : Rabs (rn (s / n) - s / n) <= uu * (2 * D)).
  { apply rn_err; [|lra]. apply abs_to. split.
    - apply Rmult_le_reg_r with n; [lra|]. unfold Rdiv. rewrite Rmult_assoc, Rinv_l by lra. lra.
    - apply Rmult_le_reg_r with n; [lra|]. unfold Rdiv. rewrite Rmult_assoc, Rinv_l by lra. lra. }
  set (a' := rn (s / n)) in *. apply abs_of in Ea.
  assert (Ea' : - (uu * (2 * (n * D))) <= n * a' - s <= uu * (2 * (n * D))).
  { replace (n * a' - s) with (n * (a' - s / n)) by (field; lra).
    replace (uu * (2 * (n * D))) with (n * (uu * (2 * D))) by ring.
    split; [rewrite Ropp_mult_distr_r|]; apply Rmult_le_compat_l; lra. }
  apply abs_to.
  replace (7 / 2 * uu * D * (n * (n + 1))) with (7 / 2 * uu * D * ((n - 1) * n) + 7 * (uu * (n * D))) by field.
  assert (0 <= uu * (n * D)) by (apply Rmult_le_pos; lra).
  unfold m in Em. fold m in Em.
  assert (m = (n - 1) * a) by (unfold m; ring).
  lra.
Qed.

Lemma run_snoc ts t : fcheck_run (ts ++ [t]) = fcheck_update (fcheck_run ts) t.
Proof. unfold fcheck_run. rewrite fold_left_app. reflexivity. Qed.
Lemma last_cons (ts : list R) a p : last (a :: ts) p = last ts a.
Proof. revert a p. induction ts as [|b r IH]; intros a p; [reflexivity|]. change (last (b :: r) p = last (b :: r) a). rewrite !IH. reflexivity. Qed.
Lemma gaps_snoc : forall ts p t, gaps p (ts ++ [t]) = gaps p ts ++ [t - last ts p].
Proof.
  induction ts as [|a r IH]; intros p t; [reflexivity|].
  cbn [app gaps]. rewrite IH, last_cons. reflexivity.
Qed.
Lemma steady_snoc : forall ts p t, steady p (ts ++ [t]) ->
  steady p ts /\ b64 t /\ last ts p / 2 <= t <= 2 * last ts p.
Proof.
  induction ts as [|a r IH]; intros p t H.
  - cbn in H. tauto.
  - cbn [app steady] in H. destruct H as [A [B C]]. apply IH in C. rewrite last_cons. cbn [steady]. tauto.
Qed.
Lemma steady_last : forall ts p, b64 p -> 0 < p -> steady p ts -> b64 (last ts p) /\ 0 < last ts p.
Proof.
  induction ts as [|a r IH]; intros p F P H; [cbn; auto|]. rewrite last_cons. destruct H as [A [B C]].
  apply IH; auto. lra.
Qed.
Lemma gaps_length : forall ts p, length (gaps p ts) = length ts.
Proof. induction ts as [|a r IH]; intro p; [reflexivity|]. cbn. rewrite IH. reflexivity. Qed.
Lemma sum_snoc l x : sum (l ++ [x]) = sum l + x.
Proof. unfold sum. induction l as [|a r IH]; cbn; [ring|]. rewrite IH. ring. Qed.
Lemma sum_bound D l : Forall (fun g => Rabs g <= D) l -> Rabs (sum l) <= INR (length l) * D.
Proof.
  induction 1 as [|a r Ha _ IH]; [cbn; rewrite Rabs_R0; lra|].
  cbn [length sum fold_right]. rewrite S_INR. change (fold_right Rplus 0 r) with (sum r).
  eapply Rle_trans; [apply Rabs_triang|]. lra.
Qed.
Lemma largest_snoc l x : largest (l ++ [x]) = Rmax (largest l) x.
Proof. unfold largest. rewrite fold_left_app. reflexivity. Qed.

Lemma rn_0 : rn 0 = 0.
Proof. unfold rn. apply round_0. apply valid_rnd_N. Qed.

Lemma check_main t0 : b64 t0 -> 0 < t0 -> forall ts D, steady t0 ts ->
  Forall (fun g => Rabs g <= D) (gaps t0 ts) -> bpow radix2 (-1022) <= D ->
  INR (S (length ts)) <= 4294967296 ->
  let c := fcheck_run (t0 :: ts) in let n := INR (S (length ts)) in
  fc_cnt c = S (length ts) /\ fc_last c = last ts t0 /\
  fc_delta c = last (gaps t0 ts) 0 /\ fc_max c = largest (gaps t0 ts) /\
  Rabs (n * fc_avg c - sum (gaps t0 ts)) <= 7 / 2 * uu * D * (n * (n + 1)).
Proof.
  intros F P ts D. induction ts as [|t ts IH] using rev_ind; intros Hs HD HB Hn; cbv zeta.
  - cbn [gaps length last sum largest fold_left fold_right fcheck_run].
    unfold fcheck_update. cbn [fc_cnt fc_last fc_delta fc_avg fc_max new_fchecker].
    destruct (ltbP 0 0); [lra|].
    replace (rn (rn (rn (0 * INR (1 - 1)) + 0) / INR 1)) with 0.
    + refine (conj eq_refl (conj eq_refl (conj eq_refl (conj _ _)))); [destruct (ltbP 0 0); auto; lra|].
      replace (INR 1 * 0 - 0) with 0 by ring. rewrite Rabs_R0. cbn [INR].
      assert (0 < uu) by (rewrite uu_val; lra).
      assert (0 < D) by (eapply Rlt_le_trans; [apply (bpow_gt_0 radix2 (-1022))|exact HB]).
      apply Rmult_le_pos; [|lra]. apply Rmult_le_pos; [|lra]. lra.
    + rewrite Rmult_0_l, rn_0, Rplus_0_l, rn_0. unfold Rdiv. rewrite Rmult_0_l, rn_0. reflexivity.
  - apply steady_snoc in Hs. destruct Hs as [Hs [Ft Ht]].
    rewrite gaps_snoc in *. apply Forall_app in HD. destruct HD as [HD Hg].
    apply Forall_inv in Hg. cbv beta in Hg. rewrite app_length, Nat.add_comm in *. cbn [length Nat.add] in *.
    assert (Hn' : INR (S (length ts)) <= 4294967296) by (rewrite S_INR in Hn; lra).
    specialize (IH Hs HD HB Hn'). cbv zeta in IH. destruct IH as [I1 [I2 [I3 [I4 I5]]]].
    change (t0 :: ts ++ [t]) with ((t0 :: ts) ++ [t]). rewrite run_snoc.
    destruct (steady_last ts t0 F P Hs) as [Fl Pl].
    set (c := fcheck_run (t0 :: ts)) in *. unfold fcheck_update. cbn [fc_cnt fc_last fc_delta fc_avg fc_max].
    rewrite I2. destruct (ltbP 0 (last ts t0)) as [_|C]; [|lra].
    rewrite (diff_exact t (last ts t0)) by (auto).
    rewrite I1, !last_last, sum_snoc, largest_snoc, <- I4.
    refine (conj eq_refl (conj eq_refl (conj eq_refl (conj _ _)))).
    { unfold Rmax. destruct (ltbP (fc_max c) (t - last ts t0)); destruct (Rle_dec (fc_max c) (t - last ts t0)); lra. }
    set (N := S (length ts)) in *. rewrite Nat.sub_succ, Nat.sub_0_r.
    replace (INR N) with (INR (S N) - 1) in I5 |- * by (rewrite S_INR; ring).
    apply mean_step; auto.
    + pose proof (pos_INR N). rewrite S_INR. lra.
    + pose proof (sum_bound D _ HD) as X. rewrite gaps_length in X.
      replace (INR (S N) - 1) with (INR N) by (rewrite S_INR; ring).
      eapply Rle_trans; [exact X|]. apply Rmult_le_compat_r.
      * eapply Rle_trans; [apply Rabs_pos|exact Hg].
      * apply le_INR. unfold N. lia.
    + replace ((INR (S N) - 1) * INR (S N)) with ((INR (S N) - 1) * (INR (S N) - 1 + 1)) by ring. exact I5.
    + intro E. exfalso. rewrite S_INR in E. unfold N in E. rewrite S_INR in E. pose proof (pos_INR (length ts)). lra.
Qed.

Lemma check_mean t0 ts D : b64 t0 -> 0 < t0 -> steady t0 ts ->
  Forall (fun g => Rabs g <= D) (gaps t0 ts) -> bpow radix2 (-1022) <= D ->
  (Z.of_nat (S (length ts)) < 2 ^ 32)%Z ->
  let c := fcheck_run (t0 :: ts) in let n := INR (S (length ts)) in
  fc_delta c = last (gaps t0 ts) 0 /\ fc_max c = largest (gaps t0 ts) /\
  Rabs (fc_avg c - sum (gaps t0 ts) / n) <= 4 * (n + 1) * / 2 ^ 53 * D.
Proof.
  intros F P Hs HD HB Hn c n.
  assert (Hn' : INR (S (length ts)) <= 4294967296).
  { rewrite INR_IZR_INZ. apply IZR_le. change (2 ^ 32)%Z with 4294967296%Z in Hn. lia. }
  destruct (check_main t0 F P ts D Hs HD HB Hn') as [_ [_ [A [B E]]]]. fold c n in A, B, E.
  refine (conj A (conj B _)).
  assert (N1 : 1 <= n) by (unfold n; rewrite S_INR; pose proof (pos_INR (length ts)); lra).
  apply Rmult_le_reg_l with n; [lra|]. rewrite <- (Rabs_pos_eq n) at 1 by lra. rewrite <- Rabs_mult.
  replace (n * (fc_avg c - sum (gaps t0 ts) / n)) with (n * fc_avg c - sum (gaps t0 ts)) by (field; lra).
  eapply Rle_trans; [exact E|].
  assert (D0 : 0 < D) by (eapply Rlt_le_trans; [apply (bpow_gt_0 radix2 (-1022))|exact HB]).
  replace (/ 2 ^ 53) with uu by (rewrite uu_val; f_equal; lra).
  assert (U0 : 0 < uu) by (rewrite uu_val; lra).
  replace (n * (4 * (n + 1) * uu * D)) with (4 * uu * D * (n * (n + 1))) by ring.
  apply Rmult_le_compat_r; [apply Rmult_le_pos; lra|].
  assert (0 <= uu * D) by (apply Rmult_le_pos; lra). lra.
Qed.
