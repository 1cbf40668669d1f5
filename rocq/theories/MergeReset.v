(** Rewinding the data (C79). *)
From Coq Require Import QArith List Arith Bool ZArith Lia.
From Verif Require Import MergeModel MergeSpec MergeProofs.
Import ListNotations.

Definition same_data (m1 m2 : manager) : Prop :=
  (forall i, que m1 i = que m2 i) /\ (forall i, position m1 i = position m2 i) /\ que_num m1 = que_num m2.
Lemma heads_same m1 m2 n : same_data m1 m2 -> forall i, heads m1 i n = heads m2 i n.
Proof.
  intros (Q & P & _). induction n as [|n IH]; intros i; [reflexivity|]. cbn [heads]. rewrite Q, P, IH. reflexivity.
Qed.
Lemma next_same m1 m2 : same_data m1 m2 ->
  match get_next m1, get_next m2 with
  | Undefined, Undefined => True
  | Done (a, x), Done (b, y) => a = b /\ same_data x y
  | _, _ => False
  end.
Proof.
  intros S. assert (H := heads_same _ _ (que_num m2) S 0%nat). destruct S as (Q & P & N).
  unfold get_next. rewrite N. destruct (Nat.ltb max_que_num (que_num m2)); [exact I|]. rewrite H.
  destruct (heads m2 0 (que_num m2)) as [t|].
  - rewrite Q, P. destruct (nth_error _ _); [|exact I]. split; [reflexivity|]. split; [exact Q|]. split; [|reflexivity].
    intros i. cbn. unfold upd. destruct (Nat.eqb _ _); [reflexivity|apply P].
  - split; [reflexivity|]. exact (conj Q (conj P N)).
Qed.
Lemma take_same n : forall m1 m2, same_data m1 m2 ->
  match take n m1, take n m2 with
  | Undefined, Undefined => True
  | Done (l, e, x), Done (k, f, y) => l = k /\ e = f /\ same_data x y
  | _, _ => False
  end.
Proof.
  induction n as [|n IH]; intros m1 m2 S; cbn [take]. { auto. }
  assert (H := next_same _ _ S). destruct (get_next m1) as [[[d1|] x]|], (get_next m2) as [[[d2|] y]|]; try contradiction;
    try (destruct H as [E H]; try discriminate E).
  - injection E as <-. specialize (IH _ _ H). destruct (take n x) as [[[l e] u]|], (take n y) as [[[k f] v]|]; try contradiction; [|exact I].
    destruct IH as (-> & -> & IH). auto.
  - auto.
  - exact I.
Qed.
Lemma next_keeps m a m' : get_next m = Done (a, m') -> (forall i, que m' i = que m i) /\ que_num m' = que_num m.
Proof.
  unfold get_next. destruct (Nat.ltb _ _); [discriminate|]. destruct (heads _ _ _) as [t|].
  - destruct (nth_error _ _); [|discriminate]. intros [= <- <-]. cbn. auto.
  - intros [= <- <-]. auto.
Qed.
Lemma take_keeps n : forall m l e m', take n m = Done (l, e, m') -> (forall i, que m' i = que m i) /\ que_num m' = que_num m.
Proof.
  induction n as [|n IH]; intros m l e m'; cbn [take]. { intros [= <- <- <-]. auto. }
  destruct (get_next m) as [[[d|] x]|] eqn:G; try discriminate.
  - destruct (take n x) as [[[k f] y]|] eqn:T; [|discriminate]. intros [= <- <- <-].
    destruct (next_keeps _ _ _ G) as [A B]. destruct (IH _ _ _ _ T) as [C D]. split; [|congruence]. intros i. rewrite C. apply A.
  - intros [= <- <- <-]. exact (next_keeps _ _ _ G).
Qed.
Lemma rewind (g : bool) imu gnss k l e m' n : take k (built g imu gnss) = Done (l, e, m') ->
  match take n (built g imu gnss), take n (reset m') with
  | Undefined, Undefined => True
  | Done (l1, e1, _), Done (l2, e2, _) => l1 = l2 /\ e1 = e2
  | _, _ => False
  end.
Proof.
  intros T. destruct (take_keeps _ _ _ _ _ T) as [A B].
  assert (S : same_data (built g imu gnss) (reset m')).
  { split; [intros i; symmetry; exact (A i)|]. split; [|symmetry; exact B]. intros i. destruct g; reflexivity. }
  assert (H := take_same n _ _ S). destruct (take n _) as [[[l1 e1] x]|], (take n (reset m')) as [[[l2 e2] y]|]; tauto.
Qed.
