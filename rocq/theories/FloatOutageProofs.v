From Coq Require Import Reals ZArith List Bool Lia Lra.
From Flocq Require Import Core.
From Verif Require Import FloatSpec FloatOutageModel.
Import ListNotations.
Open Scope R_scope.

Lemma ltbP a b : reflect (a < b) (ltb a b).
Proof. unfold ltb. destruct (Rlt_dec a b); constructor; auto. Qed.
Lemma lebP a b : reflect (a <= b) (leb a b).
Proof. unfold leb. destruct (Rle_dec a b); constructor; auto. Qed.

#[local] Instance p53 : Prec_gt_0 53 := eq_refl.
#[local] Instance p24 : Prec_gt_0 24 := eq_refl.

Lemma mult_b64 e x : (-1074 <= e)%Z -> multiple_of e x -> Rabs x < bpow radix2 (e + 53) -> b64 x.
Proof.
  intros He [n ->] Hb. apply generic_format_FLT. exists (Float radix2 n e); cbn; try lia; auto.
  assert (H : Rabs (IZR n) < bpow radix2 53).
  { apply Rmult_lt_reg_r with (bpow radix2 e); [apply bpow_gt_0|].
    rewrite <- bpow_plus. rewrite (Z.add_comm 53 e).
    rewrite Rabs_mult, (Rabs_pos_eq (bpow radix2 e)) in Hb by apply bpow_ge_0. exact Hb. }
  rewrite <- abs_IZR in H. change (bpow radix2 53) with (IZR (2 ^ 53)) in H. apply lt_IZR in H.
  change (Z.pow_pos 2 53) with (2 ^ 53)%Z. exact H.
Qed.
Lemma rn_exact x : b64 x -> rn x = x.
Proof. intro H. apply round_generic; [apply valid_rnd_N|exact H]. Qed.
Lemma mult_add e x y : multiple_of e x -> multiple_of e y -> multiple_of e (x + y).
Proof. intros [n ->] [m ->]. exists (n + m)%Z. rewrite plus_IZR. ring. Qed.

(** a nonzero float of magnitude at least 2^k is a multiple of 2^(k-23) *)
Lemma b32_mult k x : (-126 <= k)%Z -> b32 x -> bpow radix2 k <= Rabs x -> multiple_of (k - 23) x.
Proof.
  intros Hk Hx Hb. unfold b32, generic_format in Hx.
  set (ex := cexp radix2 (FLT_exp (-149) 24) x) in *.
  assert (He : (k - 23 <= ex)%Z).
  { unfold ex, cexp, FLT_exp.
    assert (k + 1 <= mag radix2 x)%Z by (apply mag_ge_bpow; replace (k + 1 - 1)%Z with k by lia; exact Hb).
    lia. }
  rewrite Hx. unfold F2R. cbn [Fnum Fexp].
  exists (Ztrunc (scaled_mantissa radix2 (FLT_exp (-149) 24) x) * 2 ^ (ex - (k - 23)))%Z.
  rewrite mult_IZR, Rmult_assoc. f_equal.
  change (IZR (2 ^ (ex - (k - 23)))) with (IZR (Zpower radix2 (ex - (k - 23)))).
  rewrite IZR_Zpower by lia. rewrite <- bpow_plus. f_equal. lia.
Qed.
Lemma mult_0 e : multiple_of e 0.
Proof. exists 0%Z. ring. Qed.

Definition in_window_R (start stop len step t : R) : Prop :=
  exists k : nat, let s := start + INR k * step in s < stop /\ s <= t /\ t <= s + len.

Section Exact.
  Variables (e : Z) (stop len step : R).
  Hypothesis He : (-1074 <= e)%Z.
  Hypothesis Ms : multiple_of e step.
  Hypothesis Ml : multiple_of e len.
  Hypothesis L0 : 0 <= len.
  Hypothesis Ls : len <= step.
  Hypothesis B : stop + step <= bpow radix2 (e + 53).

  Lemma sum_exact i d : multiple_of e i -> 0 <= i -> i < stop -> multiple_of e d -> 0 <= d -> d <= step ->
    rn (i + d) = i + d.
  Proof.
    intros Mi Hi Hlt Md Hd Hds. apply rn_exact, (mult_b64 e); [exact He|apply mult_add; auto|].
    rewrite Rabs_pos_eq by lra. lra.
  Qed.
  Lemma fgen_term : forall n i, multiple_of e i -> 0 <= i -> stop <= i + INR n * step ->
    exists l, fgen_starts (S n) i stop step = Some l.
  Proof.
    induction n as [|n IH]; intros i Mi Hi Hn.
    - exists []. cbn [fgen_starts]. destruct (ltbP i stop) as [E|E]; [|reflexivity]. cbn in Hn. lra.
    - cbn [fgen_starts]. destruct (ltbP i stop) as [E|E]; [|eexists; reflexivity].
      rewrite sum_exact by (auto; lra).
      destruct (IH (i + step)) as [l Hl]; [apply mult_add; auto|lra|rewrite S_INR in Hn; lra|].
      cbn [fgen_starts] in Hl. rewrite Hl. eexists; reflexivity.
  Qed.
  Lemma fscan_spec : forall fuel i l t, multiple_of e i -> 0 <= i -> fgen_starts fuel i stop step = Some l ->
    (fscan_starts l len t = true <-> in_window_R i stop len step t).
  Proof.
    induction fuel as [|fuel IH]; intros i l t Mi Hi Hg; [discriminate|].
    cbn [fgen_starts] in Hg. destruct (ltbP i stop) as [E|E].
    - destruct (fgen_starts fuel _ stop step) as [l'|] eqn:E'; [|discriminate].
      injection Hg as <-. rewrite sum_exact in E' by (auto; lra).
      specialize (IH _ _ t (mult_add _ _ _ Mi Ms) ltac:(lra) E'). cbn [fscan_starts].
      rewrite sum_exact by (auto; lra).
      destruct (lebP t (i + len)) as [C|C].
      + destruct (lebP i t) as [D|D]; split; intro H; auto; try discriminate.
        * exists 0%nat. cbn. repeat split; lra.
        * exfalso. destruct H as [k [H1 [H2 H3]]]. pose proof (pos_INR k).
          assert (0 <= INR k * step) by (apply Rmult_le_pos; lra). lra.
      + rewrite IH. split; intros [k [H1 [H2 H3]]].
        * exists (S k). cbv zeta. rewrite S_INR. replace (i + (INR k + 1) * step) with (i + step + INR k * step) by ring. auto.
        * destruct k as [|k].
          -- exfalso. cbn in H3. lra.
          -- exists k. cbv zeta in *. rewrite S_INR in *. replace (i + (INR k + 1) * step) with (i + step + INR k * step) in * by ring. auto.
    - injection Hg as <-. cbn [fscan_starts]. split; [discriminate|].
      intros [k [H1 _]]. pose proof (pos_INR k). assert (0 <= INR k * step) by (apply Rmult_le_pos; lra). lra.
  Qed.
End Exact.

Lemma INR_archi x : exists n : nat, x < INR n.
Proof.
  destruct (archimed x) as [H _]. exists (Z.to_nat (up x)).
  destruct (Z_le_gt_dec 0 (up x)) as [P|P].
  - rewrite INR_IZR_INZ, Z2Nat.id by exact P. lra.
  - apply Rlt_le_trans with (IZR (up x)); [lra|]. apply Rle_trans with 0; [apply IZR_le; lia|apply pos_INR].
Qed.
Lemma archi_R a b : 0 < b -> exists n : nat, a <= INR n * b.
Proof.
  intro H. destruct (INR_archi (a / b)) as [n Hn]. exists n.
  apply Rmult_le_reg_r with (/ b); [apply Rinv_0_lt_compat; exact H|].
  rewrite Rmult_assoc, Rinv_r by lra. unfold Rdiv in Hn. lra.
Qed.

Lemma outage_exact e start stop len step : (-1074 <= e)%Z ->
  multiple_of e start -> multiple_of e step -> multiple_of e len ->
  0 <= start -> start <= stop -> 0 <= len -> len <= step -> 0 < step -> stop + step <= bpow radix2 (e + 53) ->
  exists fuel o, fnew_outage fuel start stop len step = Some o /\
    forall t, fis_outage o t = true <-> in_window_R start stop len step t.
Proof.
  intros He Ma Ms Ml A0 A1 L0 Ls S0 B.
  destruct (archi_R (stop - start) step S0) as [n Hn].
  destruct (fgen_term e stop len step He Ms L0 Ls B) with (n := n) (i := start) as [l El]; try lra; auto.
  exists (S n). unfold fnew_outage.
  destruct (ltbP stop start); [lra|]. destruct (ltbP len 0); [lra|]. destruct (ltbP step len); [lra|].
  cbn [andb orb]. rewrite El. eexists. split; [reflexivity|]. intro t.
  unfold fis_outage. cbn [fo_enable negb fo_starts fo_length].
  apply (fscan_spec e stop len step He Ms Ml L0 Ls B (S n)); auto.
Qed.

Lemma stuck_sum u d : b64 u -> 0 < u -> 0 <= d -> d <= u * bpow radix2 (-54) -> rn (u + d) = u.
Proof.
  intros Fu Hu Hd Hs. apply Rle_antisym.
  - apply round_N_le_midp; [apply FLT_exp_valid; exact p53|exact Fu|].
    rewrite succ_eq_pos by lra.
    assert (Hg := ulp_FLT_gt radix2 (-1074) 53 u).
    rewrite Rabs_pos_eq in Hg by lra.
    assert (E : bpow radix2 (- (53)) = 2 * bpow radix2 (-54)).
    { change 2 with (bpow radix2 1). rewrite <- bpow_plus. reflexivity. }
    rewrite E in Hg. lra.
  - apply round_ge_generic; [apply FLT_exp_valid; exact p53|apply valid_rnd_N|exact Fu|lra].
Qed.
Lemma fgen_hang : forall fuel i stop step, rn (i + step) = i -> i < stop -> fgen_starts fuel i stop step = None.
Proof.
  induction fuel as [|f IH]; intros i stop step E H; [reflexivity|]. cbn [fgen_starts].
  destruct (ltbP i stop) as [_|C]; [|lra]. rewrite E, IH; auto.
Qed.
Lemma b32_b64 x : b32 x -> b64 x.
Proof.
  intro H. destruct (Req_dec x 0) as [->|Hx]; [apply generic_format_0|].
  apply FLT_format_generic in H; [|exact p24]. destruct H as [[m ex] H1 H2 H3].
  apply generic_format_FLT. cbn in *. exists (Float radix2 m ex); cbn; auto; lia.
Qed.
Lemma outage_fhang start stop len step : b32 start -> 0 < start -> start < stop -> 0 <= len -> len <= step ->
  step <= start * bpow radix2 (-54) -> forall fuel, fnew_outage fuel start stop len step = None.
Proof.
  intros F A B C D E fuel. unfold fnew_outage.
  destruct (ltbP stop start); [lra|]. destruct (ltbP len 0); [lra|]. destruct (ltbP step len); [lra|].
  cbn [andb orb]. rewrite fgen_hang; [reflexivity| |exact B]. apply stuck_sum; auto; [apply b32_b64; exact F|lra].
Qed.
Definition small_ok (x : R) : Prop := b32 x /\ (x = 0 \/ / 1024 <= x).
Lemma small_mult x : small_ok x -> multiple_of (-33) x.
Proof.
  intros [F [->|H]]; [apply mult_0|]. change (-33)%Z with (-10 - 23)%Z. apply b32_mult; [lia|exact F|].
  rewrite Rabs_pos_eq by lra. change (bpow radix2 (-10)) with (/ 1024). exact H.
Qed.
