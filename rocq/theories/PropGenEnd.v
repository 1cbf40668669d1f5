(** Property C152: whether the tool that computes wheel speeds (Tools/DataGenerator.cpp) ends. *)
From Coq Require Import QArith List ZArith Lia.
From Verif Require Import ReaderModel StreamModel RealMath GenModel GenSpec GenEndSpec GenProofs GenEnd PropGen.
Import QArith ListNotations.

(** the loop on the file ends after some number of turns *)
Definition ends (file : option (bool * list word)) : Prop := exists fuel l, gen_loop fuel file = Ok l.
(** it ends exactly on files that exist and whose words can all be read *)
Theorem C152_ends_partial : forall file, ends file <-> exists b ws, file = Some (b, ws) /\ readable 0 ws.
Proof.
intros [[b ws] |]; split.
- intros (fuel & l & E). exists b, ws. split; [reflexivity |].
  destruct (StreamModel.extract (combine gen_types gen_init) true ws) as [[d g] r] eqn:X.
  revert fuel l E. intros fuel l E. assert (D : readable 0 ws \/ ~ readable 0 ws).
  { clear. generalize 0%nat. induction ws as [| w ws IH]; intros c; [left; constructor |].
    revert c. induction w as [z | z q r IHr | q |]; intros c.
    - destruct (Nat.eq_dec (c mod 11) 0) as [Z | Z].
      + destruct (IH (S c)) as [Y | N]; [left; now apply readable_whole | right; intros H; inversion H; subst; (contradiction || tauto)].
      + destruct (IH (S c)) as [Y | N]; [left; now apply readable_number with (inject_Z z) | right; intros H; inversion H; subst; tauto].
    - destruct (Nat.eq_dec (c mod 11) 0) as [Z | Z].
      + destruct (IHr (S c)) as [Y | N]; [left; now apply readable_part | right; intros H; inversion H; subst; (contradiction || tauto)].
      + destruct (IH (S c)) as [Y | N]; [left; now apply readable_number with q | right; intros H; inversion H; subst; tauto].
    - destruct (Nat.eq_dec (c mod 11) 0) as [Z | Z]; [right; intros H; inversion H; subst; contradiction |].
      destruct (IH (S c)) as [Y | N]; [left; now apply readable_number with q | right; intros H; inversion H; subst; tauto].
    - right. intros H. inversion H; subst. contradiction. }
  destruct D as [Y | N]; [exact Y |]. unfold gen_loop in E. rewrite unreadable_hangs in E by (reflexivity || exact N). discriminate.
- intros (b' & ws' & E & Y). injection E as -> ->. destruct (readable_ends (S (lsize ws')) b' gen_init ws') as [l H]; [reflexivity | assumption | lia |].
  exists (S (lsize ws')), l. exact H.
- intros (fuel & l & E). unfold gen_loop in E. rewrite failed_hangs in E by reflexivity. discriminate.
- intros (b & ws & E & _). discriminate.
Qed.
(** REFUTED: it never ends on a file that cannot be opened, or on one with a heading *)
Theorem C152_missing_file_REFUTED : ~ ends None.
Proof. intros H. apply C152_ends_partial in H as (b & ws & E & _). discriminate. Qed.
Theorem C152_heading_REFUTED : forall b ws, ~ ends (Some (b, Junk :: ws)).
Proof. intros b ws H. apply C152_ends_partial in H as (b' & ws' & E & R). injection E as _ <-. inversion R; subst; contradiction. Qed.
(** with a word that is no number in column c of a line after some results: each turn from then on repeats one result, made of the columns in
    front of that word, a zero for it, and for the rest the columns of the result before; [Known] values, [n] turns, the k-th of them *)
Theorem C152_repeats_REFUTED : forall rows wss r c pre w rest n b k, Forall2 eleven rows wss -> rows <> [] -> begins r c pre -> (c < 11)%nat -> unreadable c w ->
  (length rows <= k < n)%nat ->
  exists d, nth_error (gen_turns n b gen_init true (concat wss ++ pre ++ w :: rest)) k = Some d /\ length d = 11%nat /\
  forall j, (j < 11)%nat -> nth j d Indet =
    Known (if Nat.ltb j c then nth j (eleven_numbers r) 0 else if Nat.eqb j c then 0 else nth j (eleven_numbers (last rows r)) 0).
Proof.
intros rows wss r c pre w rest n b k F N B C U K. exists (mixed r c (last (map rec rows) gen_init)).
rewrite (turns_stuck rows wss r c) by (auto using gen_init_length).
assert (last (map rec rows) gen_init = rec (last rows r)) as E.
{ destruct (exists_last N) as [a [x ->]]. rewrite map_app. cbn [map]. now rewrite !last_last. }
assert (L : length (rec (last rows r)) = 11%nat) by apply rec_length.
rewrite E. split; [| split; [now apply mixed_length |]].
- assert (X : forall (d : list (list (value Q))) m, (k < m)%nat -> nth_error (firstn m d) k = nth_error d k).
  { clear. intros d m. revert d k. induction m as [| m IH]; intros d k H; [lia |]. destruct d as [| x d]; [now destruct k |]. destruct k as [| k]; [reflexivity |]. cbn [firstn nth_error]. apply IH. lia. }
  rewrite X by lia. rewrite nth_error_app2 by (rewrite map_length; lia). rewrite map_length.
  rewrite nth_error_repeat; [reflexivity | lia].
- intros j J. unfold mixed. assert (Le : length (eleven_numbers r) = 11%nat) by (unfold eleven_numbers; cbn [length]; now rewrite numbers_length).
  assert (Lf : length (map Known (firstn c (eleven_numbers r))) = c) by (rewrite map_length, firstn_length; lia).
  destruct (Nat.ltb_spec j c) as [J1 | J1].
  + rewrite app_nth1 by lia. rewrite (nth_indep _ _ (Known 0)) by lia. rewrite map_nth.
    f_equal. rewrite <- (firstn_skipn c (eleven_numbers r)) at 2. rewrite app_nth1; [reflexivity | rewrite map_length in Lf; lia].
  + rewrite app_nth2, Lf by lia. destruct (Nat.eqb_spec j c) as [-> | J2]; [now rewrite Nat.sub_diag |].
    replace (j - c)%nat with (S (j - S c)) by lia. cbn [nth].
    rewrite (nth_indep _ _ (Known 0)) by (rewrite skipn_length; lia).
    assert (forall l i, nth i (skipn (S c) l) (Known 0%Q) = nth (S c + i) l (Known 0)) as Sk.
    { generalize (S c). clear. intros m l. revert l. induction m as [| m IH]; intros l i; [reflexivity |]. destruct l as [| x l]; [destruct i; reflexivity |]. apply IH. }
    rewrite Sk. replace (S c + (j - S c))%nat with j by lia.
    change (rec (last rows r)) with (map Known (eleven_numbers (last rows r))). apply map_nth.
Qed.
(** the lines written in [n] turns: there is no end to them *)
Theorem C152_grows_REFUTED : forall rows wss r c pre w rest n b, Forall2 eleven rows wss -> rows <> [] -> begins r c pre -> (c < 11)%nat -> unreadable c w ->
  exists l, gen_write 0 (gen_turns n b gen_init true (concat wss ++ pre ++ w :: rest)) = Some l /\ length l = ((n + 9) / 10)%nat.
Proof.
intros rows wss r c pre w rest n b F N B C U. rewrite (turns_stuck rows wss r c) by (auto using gen_init_length).
set (ds := firstn _ _). assert (W : Forall written ds).
{ apply Forall_forall. intros d H. assert (G : In d (map rec rows ++ repeat (mixed r c (last (map rec rows) gen_init)) n)).
  { unfold ds in H. rewrite <- (firstn_skipn n). apply in_or_app. now left. }
  apply in_app_or in G as [G | G].
  - apply in_map_iff in G as (x & <- & _). apply rec_written.
  - apply repeat_spec in G as ->. apply mixed_written; [assumption | now apply last_written]. }
destruct (write_written ds 0 W) as [l E]. exists l. split; [exact E |]. apply write_length in E. rewrite E.
assert (length ds = n) as -> by (unfold ds; rewrite firstn_length, app_length, map_length, repeat_length; lia).
cbn [Nat.add]. change ((9 / 10)%nat) with 0%nat. now rewrite Nat.sub_0_r.
Qed.
Print Assumptions C152_ends_partial.
Print Assumptions C152_missing_file_REFUTED.
Print Assumptions C152_heading_REFUTED.
Print Assumptions C152_repeats_REFUTED.
Print Assumptions C152_grows_REFUTED.
(** two results and the first columns of a third *)
Example C152_case : Forall2 eleven (map case_row [1#2; 1]%Q) (map case_words [1#2; 1]%Q) /\ begins (case_row 3) 2 [Whole 2017; Part 0 3 (Frac 3)] /\
  unreadable 2 Junk.
Proof.
repeat split; [cbn [map]; repeat (constructor; [apply case_eleven |]); constructor | | now left].
exists (case_words 3). split; [apply case_eleven | reflexivity].
Qed.
Example C152_case_readable : readable 0 (case_words 3 ++ case_words 4).
Proof.
unfold case_words. cbn [app].
do 2 (apply readable_whole; [reflexivity |]; do 10 (eapply readable_number; [discriminate | reflexivity |])). constructor.
Qed.
