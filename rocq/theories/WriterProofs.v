From Coq Require Import List Bool Lia Arith.
From Verif Require Import WriterModel.
Import ListNotations.

Section P.
Context {A : Type}.
Implicit Type s : wstate A.
Implicit Type rs : list A.

Definition hand s : list A := match inhand s with Some r => [r] | None => [] end.

(** inductive invariant *)
Definition winv (rs : list A) s : Prop :=
  crashed s = false /\
  pushed s ++ todo s = rs /\
  file s ++ hand s ++ queue s = pushed s /\
  (mutex s = O_user <-> (upoint s = U_push \/ upoint s = U_unlock)) /\
  (mutex s = O_writer <-> (wpoint s = W_pop \/ wpoint s = W_unlock)) /\
  (upoint s = U_push -> todo s <> []) /\
  ((wpoint s = W_lock \/ wpoint s = W_pop) -> queue s <> []) /\
  ((wpoint s = W_unlock \/ wpoint s = W_write) <-> inhand s <> None) /\
  (wpoint s = W_exit -> upoint s = U_join \/ upoint s = U_done) /\
  (flag s = false -> upoint s = U_join /\ wpoint s <> W_exit) /\
  (upoint s = U_join -> wpoint s <> W_exit -> flag s = false) /\
  ((upoint s = U_join \/ upoint s = U_done) -> todo s = []) /\
  (upoint s = U_done -> wpoint s = W_exit).

Lemma winv_init rs : winv rs (w_init rs).
Proof.
  unfold winv, w_init, hand. cbn. repeat split; intros; try discriminate; try tauto;
  repeat match goal with H : _ \/ _ |- _ => destruct H | H : _ <-> _ |- _ => destruct H end; try discriminate; try congruence.
Qed.

Ltac fin := repeat split; intros;
  repeat match goal with
  | H : ?a <-> ?b |- _ => destruct H
  | H : _ \/ _ |- _ => destruct H
  end; try congruence; try tauto; auto; try (intuition congruence).

Lemma winv_step rs s w : winv rs s -> winv rs (wstep s w).
Proof.
  destruct s as [td pu qu fl mu up wp ih fi cr]. unfold winv, hand.
  cbn [todo pushed queue flag mutex upoint wpoint inhand file crashed].
  intros (I1 & I2 & I3 & I4 & I5 & I6 & I7 & I8 & I9 & I10 & I11 & I12 & I13).
  assert (U : (up = U_push \/ up = U_unlock) -> mu = O_user) by (apply I4).
  assert (W : (wp = W_pop \/ wp = W_unlock) -> mu = O_writer) by (apply I5).
  assert (U' : mu = O_user -> up = U_push \/ up = U_unlock) by (apply I4).
  assert (W' : mu = O_writer -> wp = W_pop \/ wp = W_unlock) by (apply I5).
  assert (X : (wp = W_unlock \/ wp = W_write) -> ih <> None) by (apply I8).
  assert (X' : ih <> None -> (wp = W_unlock \/ wp = W_write)) by (apply I8).
  clear I4 I5 I8.
  destruct w; unfold wstep, step_user, step_writer, set_w; cbn [todo pushed queue flag mutex upoint wpoint inhand file crashed].
  - destruct up.
    + destruct td as [|r td]; [|destruct mu]; cbn [todo pushed queue flag mutex upoint wpoint inhand file crashed]; fin.
    + destruct td as [|r td]; [exfalso; apply I6; reflexivity|].
      specialize (U (or_introl eq_refl)). subst mu. cbn [todo pushed queue flag mutex upoint wpoint inhand file crashed]. fin;
      try (rewrite <- I2, <- app_assoc; reflexivity); try (rewrite <- I3, <- !app_assoc; reflexivity);
      try (destruct qu; discriminate).
    + specialize (U (or_intror eq_refl)). subst mu. cbn [todo pushed queue flag mutex upoint wpoint inhand file crashed]. fin.
    + destruct wp; cbn [todo pushed queue flag mutex upoint wpoint inhand file crashed]; fin.
    + cbn [todo pushed queue flag mutex upoint wpoint inhand file crashed]. fin.
  - destruct wp.
    + destruct fl; cbn [todo pushed queue flag mutex upoint wpoint inhand file crashed]; fin.
    + destruct qu as [|r qu]; cbn [todo pushed queue flag mutex upoint wpoint inhand file crashed]; fin.
    + destruct mu; cbn [todo pushed queue flag mutex upoint wpoint inhand file crashed]; fin.
    + assert (Ei : ih = None).
      { destruct ih as [a|]; [|reflexivity]. destruct X'; discriminate. }
      destruct qu as [|r qu]; [exfalso; apply I7; [right|]; reflexivity|].
      specialize (W (or_introl eq_refl)). subst mu ih. cbn [todo pushed queue flag mutex upoint wpoint inhand file crashed]. fin.
    + specialize (W (or_intror eq_refl)). subst mu. cbn [todo pushed queue flag mutex upoint wpoint inhand file crashed]. fin.
    + cbn [todo pushed queue flag mutex upoint wpoint inhand file crashed]. fin; try (rewrite <- I3; cbn [app]; rewrite <- app_assoc; reflexivity).
    + cbn [todo pushed queue flag mutex upoint wpoint inhand file crashed]. fin.
Qed.

Lemma winv_run rs sched : winv rs (wrun sched (w_init rs)).
Proof.
  unfold wrun. assert (G : forall l s, winv rs s -> winv rs (fold_left wstep l s)).
  { induction l as [|w l IH]; intros s H; [exact H|]. cbn [fold_left]. apply IH, winv_step, H. }
  apply G, winv_init.
Qed.

(** safety: for every schedule the file holds, in order and once each, a prefix of the queued results *)
Lemma file_prefix rs sched : exists rest, file (wrun sched (w_init rs)) ++ rest = rs.
Proof.
  destruct (winv_run rs sched) as (_ & H2 & H3 & _).
  set (s := wrun sched (w_init rs)) in *.
  exists ((hand s ++ queue s) ++ todo s). rewrite app_assoc, H3. exact H2.
Qed.

(** no step of any schedule takes from an empty queue *)
Lemma never_crashes rs sched : crashed (wrun sched (w_init rs)) = false.
Proof. destruct (winv_run rs sched) as (H & _). exact H. Qed.

(** no deadlock: as long as stop has not returned, one of the two threads can move *)
Lemma no_deadlock rs sched : let s := wrun sched (w_init rs) in
  upoint s <> U_done -> step_user s <> s \/ step_writer s <> s.
Proof.
  cbv zeta. pose proof (winv_run rs sched) as W. set (s := wrun sched (w_init rs)) in *.
  destruct s as [td pu qu fl mu up wp ih fi cr]. unfold winv in W.
  cbn [todo pushed queue flag mutex upoint wpoint inhand file crashed] in W.
  destruct W as (I1 & I2 & I3 & I4 & I5 & I6 & I7 & I8 & I9 & I10 & I11 & I12 & I13).
  cbn [upoint]. intro Hd. unfold step_user, step_writer, set_w.
  cbn [todo pushed queue flag mutex upoint wpoint inhand file crashed].
  destruct up; try congruence.
  - destruct td as [|r td]; [left; discriminate|]. destruct mu.
    + left. discriminate.
    + exfalso. destruct I4 as [I4 _]. destruct (I4 eq_refl); discriminate.
    + right. destruct I5 as [I5 _]. destruct (I5 eq_refl) as [-> | ->]; [|discriminate].
      destruct qu; discriminate.
  - left. destruct td; [exfalso; apply I6; reflexivity|]. discriminate.
  - left. discriminate.
  - destruct wp.
    + right. destruct fl; discriminate.
    + right. destruct qu; discriminate.
    + right. destruct mu; try discriminate.
      * exfalso. destruct I4 as [I4 _]. destruct (I4 eq_refl); discriminate.
      * exfalso. destruct I5 as [I5 _]. destruct (I5 eq_refl); discriminate.
    + right. destruct qu; discriminate.
    + right. discriminate.
    + right. intro H. injection H. intros. congruence.
    + left. discriminate.
Qed.

(** the only results that can be missing are those still queued (or in hand) *)
Lemma missing_are_queued rs sched : let s := wrun sched (w_init rs) in
  upoint s = U_done -> file s ++ queue s = rs.
Proof.
  cbv zeta. pose proof (winv_run rs sched) as W. set (s := wrun sched (w_init rs)) in *.
  destruct W as (I1 & I2 & I3 & I4 & I5 & I6 & I7 & I8 & I9 & I10 & I11 & I12 & I13).
  intro Hd. assert (Hw := I13 Hd).
  assert (Ht : todo s = []) by (apply I12; now right).
  rewrite Ht, app_nil_r in I2. rewrite <- I2, <- I3. unfold hand.
  destruct (inhand s) as [r|] eqn:E; [|reflexivity].
  exfalso. destruct I8 as [_ I8]. destruct I8 as [I8 | I8]; congruence.
Qed.

(** ** bounded termination of stop: under any schedule in which the writer moves often enough *)
Definition wrank (p : wpc) : nat :=
  match p with W_test => 1 | W_empty => 3 | W_lock => 2 | W_pop => 1 | W_unlock => 6 | W_write => 5 | W_exit => 0 end.
(** distance of the writer from its exit once the flag is cleared *)
Definition wmeasure s : nat := 6 * length (queue s) + wrank (wpoint s).

Lemma measure_writer rs s : winv rs s -> upoint s = U_join -> wpoint s <> W_exit ->
  (wmeasure (step_writer s) < wmeasure s)%nat /\ upoint (step_writer s) = U_join.
Proof.
  destruct s as [td pu qu fl mu up wp ih fi cr]. unfold winv, wmeasure.
  cbn [todo pushed queue flag mutex upoint wpoint inhand file crashed].
  intros (I1 & I2 & I3 & I4 & I5 & I6 & I7 & I8 & I9 & I10 & I11 & I12 & I13) -> Hw.
  specialize (I11 eq_refl Hw). subst fl.
  unfold step_writer, set_w. destruct wp; cbn [todo pushed queue flag mutex upoint wpoint inhand file crashed].
  - cbn. split; [lia|reflexivity].
  - destruct qu; cbn; (split; [lia|reflexivity]).
  - destruct mu; cbn; [split; [lia|reflexivity]| |].
    + exfalso. destruct I4 as [I4 _]. destruct (I4 eq_refl); discriminate.
    + exfalso. destruct I5 as [I5 _]. destruct (I5 eq_refl); discriminate.
  - destruct qu; [exfalso; apply I7; [right|]; reflexivity|]. cbn. split; [lia|reflexivity].
  - cbn. split; [lia|reflexivity].
  - cbn. split; [lia|reflexivity].
  - congruence.
Qed.

Lemma join_user s : upoint s = U_join -> wpoint s <> W_exit -> step_user s = s.
Proof. intros H Hw. unfold step_user. rewrite H. destruct (wpoint s); congruence. Qed.

(** number of writer moves in a schedule *)
Definition moves (b : bool) (l : list bool) : nat := length (filter (Bool.eqb b) l).

Lemma stop_ends rs : forall sched s, winv rs s -> upoint s = U_join -> (wmeasure s <= moves false sched)%nat ->
  wpoint (fold_left wstep sched s) = W_exit.
Proof.
  assert (K : forall sched s, wpoint s = W_exit -> wpoint (fold_left wstep sched s) = W_exit).
  { induction sched as [|w sched IH]; intros s H; [exact H|]. cbn [fold_left]. apply IH.
    destruct w; unfold wstep.
    - unfold step_user. destruct (upoint s); try exact H.
      + destruct (todo s); [exact H|]. destruct (mutex s); exact H.
      + destruct (todo s); exact H.
      + rewrite H. exact eq_refl.
    - unfold step_writer. rewrite H. exact H. }
  induction sched as [|w sched IH]; intros s Hi Hu Hm.
  - cbn in *. unfold wmeasure in Hm. destruct (wpoint s); cbn in Hm; try lia. reflexivity.
  - cbn [fold_left].
    assert (D : wpoint s = W_exit \/ wpoint s <> W_exit) by (destruct (wpoint s); auto; right; discriminate).
    destruct D as [Ew|Hne].
    + apply K. apply (K [w]). exact Ew.
    + destruct w; cbn [wstep].
      * rewrite join_user by assumption. apply IH; [exact Hi|exact Hu|exact Hm].
      * destruct (measure_writer rs s Hi Hu Hne) as [M1 M2].
        apply IH; [exact (winv_step rs s false Hi)|exact M2|].
        change (moves false (false :: sched)) with (S (moves false sched)) in Hm. lia.
Qed.
End P.

(** a schedule that loses a result: the writer finds the queue empty, then the result is
    queued and stop is called, then the writer tests the flag *)
Definition losing_schedule : list bool :=
  [false; false; (* flag set, queue empty *) true; true; true; (* update *) true; (* stop: clear *)
   false; (* test: exit *) true (* join *)].
Definition racing_schedule : list bool := [false; true].
