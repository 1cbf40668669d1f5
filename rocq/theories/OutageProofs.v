(** Proofs for the outage windows. *)
From Coq Require Import QArith Qfield Qround ZArith List Bool Lia Lqa.
From Verif Require Import MergeModel MergeProofs OutageModel OutageSpec.
Import ListNotations.

Lemma Qle_bool_false a b : Qle_bool a b = false -> b < a.
Proof.
  intro H. apply Qnot_le_lt. intro C. apply Qle_bool_iff in C. congruence.
Qed.

Lemma inj_S k : inject_Z (Z.of_nat (S k)) == inject_Z (Z.of_nat k) + 1.
Proof. rewrite Nat2Z.inj_succ. unfold Z.succ. rewrite inject_Z_plus. reflexivity. Qed.
Lemma inj_nonneg k : 0 <= inject_Z (Z.of_nat k).
Proof. unfold Qle. cbn. lia. Qed.

Lemma gen_term : forall n i stop step, 0 < step -> stop <= i + inject_Z (Z.of_nat n) * step ->
  exists l, gen_starts (S n) i stop step = Some l.
Proof.
  induction n as [|n IH]; intros i stop step Hs Hn.
  - exists []. cbn [gen_starts]. destruct (Qltb i stop) eqn:E; [|reflexivity].
    apply Qltb_lt in E. exfalso. change (inject_Z (Z.of_nat 0)) with 0 in Hn. lra.
  - cbn [gen_starts]. destruct (Qltb i stop) eqn:E; [|eexists; reflexivity].
    destruct (IH (i + step) stop step Hs) as [l Hl].
    { rewrite inj_S in Hn. lra. }
    cbn [gen_starts] in Hl. rewrite Hl. eexists; reflexivity.
Qed.

Lemma archi (a b : Q) : 0 < b -> exists n : nat, a <= inject_Z (Z.of_nat n) * b.
Proof.
  intro Hb. exists (Z.to_nat (Z.max 0 (Qceiling (a / b)))).
  rewrite Z2Nat.id by lia.
  assert (a / b <= inject_Z (Z.max 0 (Qceiling (a / b)))).
  { eapply Qle_trans; [apply Qle_ceiling|]. unfold inject_Z, Qle. cbn. lia. }
  setoid_replace a with (a / b * b) at 1 by (field; lra).
  apply Qmult_le_compat_r; [assumption|lra].
Qed.

Lemma scan_spec : forall fuel i stop len step l t, 0 <= len -> len <= step ->
  gen_starts fuel i stop step = Some l ->
  (scan_starts l len t = true <-> in_window i stop len step t).
Proof.
  induction fuel as [|fuel IH]; intros i stop len step l t Hl Hs Hg; [discriminate|].
  cbn [gen_starts] in Hg. destruct (Qltb i stop) eqn:E.
  - apply Qltb_lt in E. destruct (gen_starts fuel (i + step) stop step) as [l'|] eqn:E'; [|discriminate].
    injection Hg as <-. specialize (IH _ _ _ _ _ t Hl Hs E'). cbn [scan_starts].
    destruct (Qle_bool t (i + len)) eqn:B.
    + apply Qle_bool_iff in B. rewrite Qle_bool_iff. split; intro H.
      * exists 0%nat. cbv zeta. change (inject_Z (Z.of_nat 0)) with 0. repeat split; lra.
      * destruct H as [k [H1 [H2 H3]]]. pose proof (inj_nonneg k).
        assert (0 <= inject_Z (Z.of_nat k) * step) by (apply Qmult_le_0_compat; lra). lra.
    + apply Qle_bool_false in B. rewrite IH. split; intros [k [H1 [H2 H3]]].
      * exists (S k). cbv zeta. assert (Ek : i + inject_Z (Z.of_nat (S k)) * step == i + step + inject_Z (Z.of_nat k) * step)
          by (rewrite inj_S; ring). rewrite Ek. auto.
      * destruct k as [|k].
        -- exfalso. change (inject_Z (Z.of_nat 0)) with 0 in H3. lra.
        -- exists k. cbv zeta in *. assert (Ek : i + inject_Z (Z.of_nat (S k)) * step == i + step + inject_Z (Z.of_nat k) * step)
             by (rewrite inj_S; ring). rewrite Ek in H1, H2, H3. auto.
  - apply Qltb_ge in E. injection Hg as <-. cbn [scan_starts]. split; [discriminate|].
    intros [k [H1 _]]. pose proof (inj_nonneg k).
    assert (0 <= inject_Z (Z.of_nat k) * step) by (apply Qmult_le_0_compat; lra). lra.
Qed.

Lemma plan_dec start stop len step :
  (Qltb stop start && Qltb 0 stop) || Qltb len 0 || Qltb step len = false <-> valid_plan start stop len step.
Proof.
  unfold valid_plan. rewrite !orb_false_iff, andb_false_iff, !Qltb_ge. split.
  - intros [[H1 H2] H3]. split; [|auto]. intros [A B]. destruct H1; lra.
  - intros [H1 [H2 H3]]. split; [|auto]. split; [|auto].
    destruct (Qlt_le_dec stop start) as [C|C]; [right|left; exact C].
    destruct (Qlt_le_dec 0 stop) as [D|D]; [|exact D]. destruct H1. auto.
Qed.

Lemma outage_windows start stop len step : valid_plan start stop len step -> 0 < step ->
  exists fuel o, new_outage fuel start stop len step = Some o /\
    forall t, is_outage o t = true <-> in_window start stop len step t.
Proof.
  intros Hv Hs. pose proof Hv as [_ [Hl Hle]]. destruct (archi (stop - start) step Hs) as [n Hn].
  destruct (gen_term n start stop step Hs) as [l El]; [lra|].
  exists (S n). unfold new_outage. apply plan_dec in Hv. rewrite Hv, El.
  eexists. split; [reflexivity|]. intro t. cbn [is_outage o_enable negb o_starts o_length].
  unfold is_outage. cbn [o_enable negb o_starts o_length]. eapply scan_spec; eauto.
Qed.

(** every construction that ends gives the same answer *)
Lemma gen_det : forall f f' i stop step l l', gen_starts f i stop step = Some l ->
  gen_starts f' i stop step = Some l' -> l = l'.
Proof.
  induction f as [|f IH]; intros f' i stop step l l' H H'; [discriminate|].
  destruct f' as [|f']; [discriminate|]. cbn [gen_starts] in *.
  destruct (Qltb i stop); [|congruence].
  destruct (gen_starts f _ _ _) as [a|] eqn:E; [|discriminate].
  destruct (gen_starts f' _ _ _) as [b|] eqn:E'; [|discriminate].
  rewrite (IH _ _ _ _ _ _ E E') in H. congruence.
Qed.

Lemma outage_disabled fuel start stop len step : ~ valid_plan start stop len step ->
  exists o, new_outage fuel start stop len step = Some o /\ forall t, is_outage o t = false.
Proof.
  intro H. unfold new_outage. destruct (_ || _ || _) eqn:E; [|apply plan_dec in E; contradiction].
  eexists. split; [reflexivity|]. reflexivity.
Qed.

Lemma gen_hang : forall fuel i stop, i < stop -> gen_starts fuel i stop 0 = None.
Proof.
  induction fuel as [|f IH]; intros i stop H; [reflexivity|]. cbn [gen_starts].
  assert (B := H). apply Qltb_lt in B. rewrite B. rewrite IH; [reflexivity|lra].
Qed.
Lemma outage_hang start stop : start < stop ->
  valid_plan start stop 0 0 /\ forall fuel, new_outage fuel start stop 0 0 = None.
Proof.
  intro H. assert (V : valid_plan start stop 0 0) by (unfold valid_plan; split; [lra|split; lra]).
  split; [exact V|]. intro fuel. unfold new_outage. apply plan_dec in V. rewrite V.
  rewrite gen_hang by exact H. reflexivity.
Qed.

(** windows of a valid plan with positive gaps do not overlap: the answer for a time determines the window *)
Lemma windows_disjoint start len step t (j k : nat) : 0 <= len -> len < step ->
  start + inject_Z (Z.of_nat j) * step <= t <= start + inject_Z (Z.of_nat j) * step + len ->
  start + inject_Z (Z.of_nat k) * step <= t <= start + inject_Z (Z.of_nat k) * step + len -> j = k.
Proof.
  intros Hl Hs Hj Hk.
  assert (G : forall a b : nat, (a < b)%nat ->
    start + inject_Z (Z.of_nat a) * step + len < start + inject_Z (Z.of_nat b) * step).
  { intros a b Hab. assert (inject_Z (Z.of_nat a) + 1 <= inject_Z (Z.of_nat b)).
    { rewrite <- inj_S. unfold Qle. cbn. lia. }
    assert ((inject_Z (Z.of_nat a) + 1) * step <= inject_Z (Z.of_nat b) * step) by (apply Qmult_le_compat_r; lra).
    lra. }
  destruct (Nat.lt_trichotomy j k) as [H|[H|H]]; [|exact H|]; exfalso; apply G in H; lra.
Qed.
