(** When the loop of the generator ends. *)
From Coq Require Import QArith List ZArith Bool Lia Arith.
From Verif Require Import ReaderModel StreamModel GenModel GenSpec GenEndSpec GenProofs.
Import QArith ListNotations.

Lemma readable_same : forall c ws, readable c ws -> forall c', (c' mod 11 = c mod 11)%nat -> readable c' ws.
Proof.
assert (S1 : forall a b, (a mod 11 = b mod 11)%nat -> (S a mod 11 = S b mod 11)%nat).
{ intros a b E. change (S a) with (1 + a)%nat. change (S b) with (1 + b)%nat.
  rewrite (Nat.add_mod 1 a), (Nat.add_mod 1 b), E by lia. reflexivity. }
intros c ws H. induction H; intros c' E.
- constructor.
- apply readable_number with q; [congruence | assumption | auto].
- apply readable_whole; [congruence | auto].
- apply readable_part; [congruence | auto].
Qed.

(** how many numbers there are at most in a text *)
Fixpoint wsize (w : word) : nat := match w with Part _ _ r => S (wsize r) | _ => 1%nat end.
Fixpoint lsize (ws : list word) : nat := match ws with [] => 0%nat | w :: r => (wsize w + lsize r)%nat end.

Definition verdict (c : nat) (ws : list word) (g : bool) (r : list word) : Prop :=
  if g then readable c ws <-> readable 11 r else match r with [] => readable c ws | _ => ~ readable c ws end.

Lemma verdict_step : forall c ws c' ws' g r, (readable c ws <-> readable c' ws') -> verdict c' ws' g r -> verdict c ws g r.
Proof. intros c ws c' ws' g r E V. unfold verdict in *. destruct g; [| destruct r]; tauto. Qed.

Lemma doubles : forall vs c ws d g r, (1 <= c)%nat -> (c + length vs = 11)%nat ->
  StreamModel.extract (combine (repeat false (length vs)) vs) true ws = (d, g, r) ->
  length d = length vs /\ (lsize r <= lsize ws)%nat /\ verdict c ws g r.
Proof.
induction vs as [| v vs IH]; intros c ws d g r C L E.
- simpl in E. injection E as <- <- <-. simpl in L. replace c with 11%nat by lia. split; [reflexivity | split; [lia | unfold verdict; tauto]].
- assert (Cm : (c mod 11 <> 0)%nat) by (simpl in L; rewrite Nat.mod_small; lia).
  cbn [repeat length combine StreamModel.extract] in E. destruct ws as [| w ws].
  + rewrite extract_stop in E. injection E as <- <- <-. split; [| split; [lia | constructor]].
    simpl. rewrite map_length, combine_length, repeat_length. lia.
  + destruct (take false w) as [[q [w' |]] |] eqn:T.
    * destruct w; discriminate T.
    * destruct (StreamModel.extract (combine (repeat false (length vs)) vs) true ws) as [[d' g'] r'] eqn:E'.
      injection E as <- <- <-. apply (IH (S c)) in E'; [| lia | simpl in L; lia]. destruct E' as (L1 & S1 & V1).
      split; [simpl; lia | split; [simpl; lia |]]. apply verdict_step with (2 := V1). split; intros H.
      -- inversion H; subst; (assumption || contradiction).
      -- apply readable_number with q; auto. destruct w; simpl in T; try discriminate; injection T as <-; reflexivity.
    * rewrite extract_stop in E. injection E as <- <- <-. split; [| split; [lia |]].
      -- simpl. rewrite map_length, combine_length, repeat_length. lia.
      -- unfold verdict. intros H. inversion H; subst; try contradiction. destruct w; simpl in *; try discriminate; contradiction.
Qed.

Lemma line_verdict : forall vs ws d g r, length vs = 11%nat -> StreamModel.extract (combine gen_types vs) true ws = (d, g, r) ->
  length d = 11%nat /\ (ws <> [] -> g = true -> (lsize r < lsize ws)%nat) /\ verdict 0 ws g r.
Proof.
intros vs ws d g r L E. destruct vs as [| v vs]; [discriminate |]. assert (L' : length vs = 10%nat) by (simpl in L; lia).
unfold gen_types in E. rewrite <- L' in E. cbn [combine StreamModel.extract] in E. destruct ws as [| w ws].
- rewrite extract_stop in E. injection E as <- <- <-. split; [| split; [congruence | constructor]].
  simpl. rewrite map_length, combine_length, repeat_length. lia.
- destruct w as [z | z q r1 | q |]; cbn [take] in E.
  + destruct (StreamModel.extract (combine (repeat false (length vs)) vs) true ws) as [[d' g'] r'] eqn:E'. injection E as <- <- <-.
    apply (doubles vs 1) in E'; [| lia | lia]. destruct E' as (L1 & S1 & V1). split; [simpl; lia | split; [intros _ _; simpl; lia |]].
    apply verdict_step with (2 := V1). split; intros H.
    * inversion H; subst; [exfalso; match goal with H : (0 mod 11 <> 0)%nat |- _ => apply H; reflexivity end | assumption].
    * now apply readable_whole.
  + destruct (StreamModel.extract (combine (repeat false (length vs)) vs) true (r1 :: ws)) as [[d' g'] r'] eqn:E'. injection E as <- <- <-.
    apply (doubles vs 1) in E'; [| lia | lia]. destruct E' as (L1 & S1 & V1). split; [simpl; lia | split; [intros _ _; simpl in *; lia |]].
    apply verdict_step with (2 := V1). split; intros H.
    * inversion H; subst; [exfalso; match goal with H : (0 mod 11 <> 0)%nat |- _ => apply H; reflexivity end | assumption].
    * now apply readable_part.
  + rewrite extract_stop in E. injection E as <- <- <-. split; [simpl; rewrite map_length, combine_length, repeat_length; lia |].
    split; [discriminate |]. intros H. inversion H; subst. match goal with H : (0 mod 11 <> 0)%nat |- _ => apply H; reflexivity end.
  + rewrite extract_stop in E. injection E as <- <- <-. split; [simpl; rewrite map_length, combine_length, repeat_length; lia |].
    split; [discriminate |]. intros H. inversion H; subst. contradiction.
Qed.

Lemma failed_hangs : forall fuel b prev ws, length prev = 11%nat -> gen_read fuel b prev false ws = Hang.
Proof.
induction fuel as [| k IH]; intros b prev ws L; [reflexivity |]. cbn [gen_read]. rewrite extract_stop, snd_types by assumption.
now rewrite IH.
Qed.

Lemma unreadable_hangs : forall fuel b prev ws, length prev = 11%nat -> ~ readable 0 ws -> gen_read fuel b prev true ws = Hang.
Proof.
induction fuel as [| k IH]; intros b prev ws L N; [reflexivity |]. cbn [gen_read].
destruct (StreamModel.extract (combine gen_types prev) true ws) as [[d g] r] eqn:E.
apply line_verdict in E; [| assumption]. destruct E as (Ld & _ & V). unfold verdict in V. destruct g.
- assert (N' : ~ readable 0 r) by (intros H; apply N, V; apply readable_same with (1 := H); reflexivity).
  destruct r as [| w r]; [exfalso; apply N'; constructor |]. now rewrite IH.
- destruct r as [| w r]; [contradiction |]. now rewrite failed_hangs.
Qed.

Lemma readable_ends : forall fuel b prev ws, length prev = 11%nat -> readable 0 ws -> (lsize ws < fuel)%nat ->
  exists l, gen_read fuel b prev true ws = Ok l.
Proof.
induction fuel as [| k IH]; intros b prev ws L N F; [lia |]. cbn [gen_read].
destruct (StreamModel.extract (combine gen_types prev) true ws) as [[d g] r] eqn:E.
assert (G : ws = [] -> g = false).
{ intros ->. rewrite extract_none in E by (destruct prev; discriminate). now injection E as _ <- _. }
apply line_verdict in E; [| assumption]. destruct E as (Ld & S1 & V). unfold verdict in V. destruct g.
- assert (ws <> []) as Ne by (intros H; specialize (G H); discriminate). specialize (S1 Ne eq_refl).
  assert (N' : readable 0 r) by (apply readable_same with (c := 11%nat); [apply V, N | reflexivity]).
  destruct (IH b d r Ld N') as [l El]; [lia |]. rewrite El. destruct r; [destruct b |]; eexists; reflexivity.
- destruct r as [| w r]; [eexists; reflexivity | contradiction].
Qed.

(** the turns that have been made *)
Lemma turns_read : forall fuel b prev g ws l, gen_read fuel b prev g ws = Ok l -> gen_turns fuel b prev g ws = l.
Proof.
induction fuel as [| k IH]; intros b prev g ws l E; [discriminate |]. cbn [gen_read gen_turns] in *.
destruct (StreamModel.extract (combine gen_types prev) g ws) as [[d g'] r].
destruct (if g then _ else false); [now injection E as <- |].
destruct (gen_read k b d g' r) as [t | |] eqn:E2; try discriminate. injection E as <-. now rewrite (IH _ _ _ _ _ E2).
Qed.

Lemma turns_failed : forall n b prev ws, length prev = 11%nat -> gen_turns n b prev false ws = repeat prev n.
Proof.
induction n as [| k IH]; intros b prev ws L; [reflexivity |]. cbn [gen_turns]. rewrite extract_stop, snd_types by assumption.
cbn [repeat]. now rewrite IH.
Qed.

Lemma extract_partial : forall ws qs vs w rest, Forall2 denotes ws qs -> (length ws < length vs)%nat -> take false w = None ->
  StreamModel.extract (combine (repeat false (length vs)) vs) true (ws ++ w :: rest) = (map Known qs ++ Known 0 :: skipn (S (length ws)) vs, false, w :: rest).
Proof.
induction ws as [| x ws IH]; intros qs vs w rest F L T; inversion F; subst; (destruct vs as [| v vs]; [simpl in L; lia |]).
- cbn [repeat length combine app StreamModel.extract]. rewrite T, extract_stop. cbn [map app skipn].
  replace (map snd (combine (repeat false (length vs)) vs)) with vs; [reflexivity |].
  clear. induction vs as [| y vs IH]; [reflexivity |]. cbn [repeat length combine map snd]. now rewrite <- IH.
- cbn [repeat length combine app StreamModel.extract]. rewrite (take_denotes x y) by assumption.
  rewrite (IH l') by (auto; simpl in L; lia). reflexivity.
Qed.

(** nav after the turn in which a word could not be read in column c *)
Definition mixed (r : nav_row) (c : nat) (prev : list (value Q)) : list (value Q) :=
  map Known (firstn c (eleven_numbers r)) ++ Known 0 :: skipn (S c) prev.

Lemma forall2_firstn {A B} (R : A -> B -> Prop) : forall n l m, Forall2 R l m -> Forall2 R (firstn n l) (firstn n m).
Proof. induction n as [| n IH]; intros l m F; [constructor |]. inversion F; subst; [constructor |]. cbn [firstn]. constructor; auto. Qed.

Lemma extract_stuck : forall r c pre w rest prev, begins r c pre -> (c < 11)%nat -> unreadable c w -> length prev = 11%nat ->
  StreamModel.extract (combine gen_types prev) true (pre ++ w :: rest) = (mixed r c prev, false, w :: rest).
Proof.
intros r c pre w rest prev (ws & (l & -> & F) & ->) C U L. destruct prev as [| v prev]; [discriminate |].
assert (L' : length prev = 10%nat) by (simpl in L; lia).
destruct c as [| c].
- cbn [firstn app]. unfold gen_types. cbn [combine StreamModel.extract].
  assert (take true w = None) as -> by (destruct U as [-> | (_ & q & ->)]; reflexivity).
  rewrite extract_stop. unfold mixed. cbn [firstn map app skipn]. rewrite <- L'.
  replace (map snd (combine (repeat false (length prev)) prev)) with prev; [reflexivity |].
  clear. induction prev as [| y vs IH]; [reflexivity |]. cbn [repeat length combine map snd]. now rewrite <- IH.
- cbn [firstn app]. unfold gen_types. cbn [combine StreamModel.extract take]. rewrite <- L'.
  assert (Ll : length l = 10%nat) by (rewrite <- (numbers_length r); exact (same_length denotes _ _ F)).
  assert (Lf : length (firstn c l) = c) by (apply firstn_length_le; lia).
  rewrite (extract_partial (firstn c l) (firstn c (numbers r)) prev w rest).
  + unfold mixed, eleven_numbers. cbn [firstn map app skipn]. rewrite Lf. reflexivity.
  + now apply forall2_firstn.
  + lia.
  + destruct U as [-> | (X & _)]; [reflexivity | discriminate].
Qed.

Lemma mixed_length : forall r c prev, (c < 11)%nat -> length prev = 11%nat -> length (mixed r c prev) = 11%nat.
Proof.
intros r c prev C L. unfold mixed. rewrite app_length, map_length, firstn_length_le by (unfold eleven_numbers; simpl; rewrite numbers_length; lia).
cbn [length]. rewrite skipn_length. lia.
Qed.

Lemma turns_stuck : forall rows wss r c pre w rest prev n b, Forall2 eleven rows wss -> begins r c pre -> (c < 11)%nat -> unreadable c w ->
  length prev = 11%nat ->
  gen_turns n b prev true (concat wss ++ pre ++ w :: rest) = firstn n (map rec rows ++ repeat (mixed r c (last (map rec rows) prev)) n).
Proof.
induction rows as [| x rows IH]; intros wss r c pre w rest prev n b F B C U L; inversion F; subst; (destruct n as [| n]; [reflexivity |]).
- cbn [concat app map last gen_turns]. rewrite (extract_stuck r c) by assumption. rewrite turns_failed by now apply mixed_length.
  change (repeat (mixed r c prev) (S n)) with (mixed r c prev :: repeat (mixed r c prev) n). cbn [firstn]. f_equal.
  rewrite firstn_all2; [reflexivity | rewrite repeat_length; lia].
- cbn [concat gen_turns]. rewrite <- app_assoc, (extract_row x) by assumption.
  replace (match concat l' ++ pre ++ w :: rest with [] => if true then negb b else true | _ :: _ => false end) with false
    by (destruct (concat l'), pre; reflexivity).
  rewrite (IH l' r c) by (auto using rec_length). cbn [map app]. rewrite last_cons.
  cbn [firstn]. f_equal. rewrite !firstn_app. f_equal.
  set (m := mixed _ _ _). change (repeat m (S n)) with (m :: repeat m n). rewrite repeat_cons.
  rewrite firstn_app, repeat_length. replace (n - length (map rec rows) - n)%nat with 0%nat by lia. cbn [firstn]. now rewrite app_nil_r.
Qed.

Lemma mixed_written : forall r c prev, (c < 11)%nat -> written prev -> written (mixed r c prev).
Proof.
intros r c prev C [L K]. split; [now apply mixed_length |]. unfold mixed. apply Forall_app. split.
- apply Forall_forall. intros v H. apply in_map_iff in H as (q & <- & _). discriminate.
- constructor; [discriminate |]. apply Forall_forall. intros v H. rewrite Forall_forall in K. apply K.
  rewrite <- (firstn_skipn (S c) prev). apply in_or_app. now right.
Qed.
Lemma rec_written : forall r, written (rec r).
Proof.
intros r. split; [apply rec_length |]. unfold rec. constructor; [discriminate |]. apply Forall_forall. intros v H.
apply in_map_iff in H as (q & <- & _). discriminate.
Qed.
Lemma last_written : forall rows prev, rows <> [] -> written (last (map rec rows) prev).
Proof.
intros rows prev N. destruct (exists_last N) as [a [r ->]]. rewrite map_app. cbn [map]. rewrite last_last. apply rec_written.
Qed.

Lemma write_length : forall ds cnt l, gen_write cnt ds = Some l -> (length l = (cnt + length ds + 9) / 10 - (cnt + 9) / 10)%nat.
Proof.
induction ds as [| d ds IH]; intros cnt l E; cbn [gen_write] in E.
- injection E as <-. cbn [length]. rewrite Nat.add_0_r. lia.
- destruct (gen_of d) as [w |]; [| discriminate]. destruct (gen_write (S cnt) ds) as [t |] eqn:E2; [| discriminate].
  apply IH in E2. assert (l = if Nat.eqb (Nat.modulo cnt 10) 0 then w :: t else t) as -> by congruence. clear E.
  assert (A : ((S cnt + 9) / 10 = (cnt + 9) / 10 + (if (cnt mod 10 =? 0)%nat then 1 else 0))%nat).
  { pose proof (Nat.div_mod cnt 10 ltac:(lia)). pose proof (Nat.mod_upper_bound cnt 10 ltac:(lia)).
    set (q := (cnt / 10)%nat) in *. set (m := (cnt mod 10)%nat) in *.
    destruct (Nat.eqb_spec m 0).
    - replace ((S cnt + 9) / 10)%nat with (S q) by (apply Nat.div_unique with 0%nat; lia).
      replace ((cnt + 9) / 10)%nat with q by (apply Nat.div_unique with 9%nat; lia). lia.
    - replace ((S cnt + 9) / 10)%nat with (S q) by (apply Nat.div_unique with m; lia).
      replace ((cnt + 9) / 10)%nat with (S q) by (apply Nat.div_unique with (m - 1)%nat; lia). lia. }
  assert (((S cnt + 9) / 10 <= (S cnt + length ds + 9) / 10)%nat) by (apply Nat.div_le_mono; lia).
  replace (cnt + length (d :: ds))%nat with (S cnt + length ds)%nat by (simpl; lia).
  revert A; destruct (cnt mod 10 =? 0)%nat; intros A; cbn [length]; lia.
Qed.
