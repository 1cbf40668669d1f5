From Coq Require Import List NArith ZArith QArith Qabs Ascii String Bool Lia.
From Verif Require Import TextModel TextSpec TextProofs TextProofsG TextMain ViewModel.
Import ListNotations.
Open Scope list_scope.

Lemma all_some_F {A B} (f : A -> option B) l rows : all_some (map f l) = Some rows <-> Forall2 (fun x r => f x = Some r) l rows.
Proof.
  revert rows. induction l as [|x l IH]; intros rows; cbn [map all_some].
  - split; [intros [= <-]; constructor|inversion 1; reflexivity].
  - destruct (f x) as [y|] eqn:E.
    + destruct (all_some (map f l)) as [ys|] eqn:E2.
      * split.
        -- intros [= <-]. constructor; [exact E|]. apply IH. reflexivity.
        -- inversion 1; subst. assert (y = y0) by congruence. subst. f_equal. f_equal. specialize (IH l'). apply proj2 in IH. specialize (IH H4). congruence.
      * split; [discriminate|]. inversion 1; subst. specialize (IH l'). apply proj2 in IH. specialize (IH H4). discriminate.
    + split; [discriminate|]. inversion 1; congruence.
Qed.

Lemma pieces_nonempty sep t : pieces sep t <> [].
Proof. destruct t as [|c t]; cbn; [discriminate|]. destruct (Ascii.eqb c sep); [discriminate|]. destruct (pieces sep t); discriminate. Qed.

Lemma pieces_line l t : ~ In newline l -> pieces newline (l ++ newline :: t) = l :: pieces newline t.
Proof.
  induction l as [|c l IH]; intros H.
  - cbn [app pieces]. rewrite Ascii.eqb_refl. reflexivity.
  - cbn [app pieces]. destruct (Ascii.eqb_spec c newline) as [->|N]; [destruct H; left; reflexivity|].
    rewrite IH by (intros I; apply H; right; exact I). reflexivity.
Qed.
Lemma pieces_ended (lines : list text) : (forall l, In l lines -> ~ In newline l) ->
  pieces newline (List.concat (map (fun l => l ++ [newline]) lines)) = lines ++ [[]].
Proof.
  induction lines as [|l lines IH]; intros H; [reflexivity|].
  cbn [map List.concat]. rewrite <- app_assoc. cbn [app]. rewrite pieces_line by (apply H; left; reflexivity).
  f_equal. apply IH. intros x I; apply H; right; exact I.
Qed.

Lemma filter_all {A} (f : A -> bool) l : (forall x, In x l -> f x = true) -> filter f l = l.
Proof. induction l as [|x l IH]; intros H; [reflexivity|]. cbn. rewrite (H x (or_introl eq_refl)). f_equal. apply IH. intros; apply H; right; assumption. Qed.

Lemma nonblank l row : numbers l = Some row -> row <> [] -> negb (blank l) = true.
Proof. unfold numbers, blank. destruct (text_words l); [intros [= <-]; congruence|reflexivity]. Qed.

(** a file whose lines all have n numbers *)
Lemma loadtxt_lines n lines rows : (forall l, In l lines -> ~ In newline l) -> (0 < n)%nat ->
  Forall2 (fun l row => numbers l = Some row) lines rows -> Forall (fun row => List.length row = n) rows ->
  loadtxt (List.concat (map (fun l => l ++ [newline]) lines)) =
  Some (match rows with [] => OneDimension [] | [r] => OneDimension r | _ => Table rows end).
Proof.
  intros H Hn F L. unfold loadtxt. rewrite pieces_ended by exact H. rewrite filter_app. cbn [filter]. cbn [blank text_words pieces negb].
  unfold blank at 2. cbn. rewrite app_nil_r. rewrite filter_all.
  2:{ intros x Ix. clear H. induction F as [|l row ls rs E F IH]; [destruct Ix|]. inversion L; subst. destruct Ix as [<-|Ix]; [|apply IH; assumption].
      apply (nonblank _ _ E). destruct row; [cbn in *; lia|discriminate]. }
  replace (all_some (map numbers lines)) with (Some rows) by (symmetry; apply all_some_F; exact F).
  replace (even rows) with true; [reflexivity|]. symmetry. unfold even. destruct rows as [|r rows]; [reflexivity|].
  apply forallb_forall. intros r' I. apply Nat.eqb_eq. rewrite Forall_forall in L. rewrite (L r' I), (L r (or_introl eq_refl)). reflexivity.
Qed.

Lemma column_none k rows : rows <> [] -> Forall (fun r => (List.length r <= k)%nat) rows -> column k rows = None.
Proof.
  intros N H. unfold column. destruct rows as [|r rows]; [congruence|]. inversion H; subst. cbn [map all_some].
  replace (nth_error r k) with (@None Q); [reflexivity|]. symmetry. apply nth_error_None. assumption.
Qed.
Lemma column_some k rows : Forall (fun r => (k < List.length r)%nat) rows -> column k rows = Some (map (fun r => nth k r 0%Q) rows).
Proof.
  intros H. unfold column. apply all_some_F. induction H as [|r rows Hr _ IH]; cbn [map]; constructor; [|exact IH].
  apply nth_error_nth'. exact Hr.
Qed.

(** a file with too few columns for the scripts *)
Lemma few_columns n lines rows : (forall l, In l lines -> ~ In newline l) -> (0 < n)%nat ->
  Forall2 (fun l row => numbers l = Some row) lines rows -> Forall (fun row => List.length row = n) rows ->
  ((n <= 24)%nat -> show_sensors (List.concat (map (fun l => l ++ [newline]) lines)) = None) /\
  ((n <= 19)%nat -> show_bias (List.concat (map (fun l => l ++ [newline]) lines)) = None).
Proof.
  intros H Hn F L. unfold show_sensors, show_bias. rewrite (loadtxt_lines n lines rows H Hn F L).
  destruct rows as [|a [|b rows]]; [split; reflexivity|split; reflexivity|].
  split; intros B; [rewrite column_none by (first [discriminate | eapply Forall_impl; [|exact L]; cbn; intros; lia]); reflexivity|].
  destruct (column 1 (a :: b :: rows)); [|reflexivity].
  rewrite column_none by (first [discriminate | eapply Forall_impl; [|exact L]; cbn; intros; lia]). reflexivity.
Qed.

Lemma land_bit x i : (0 <= i)%Z -> (0 <? Z.land x (2 ^ i))%Z = Z.testbit x i.
Proof.
  intros Hi. assert (E : Z.land x (2 ^ i) = if Z.testbit x i then (2 ^ i)%Z else 0%Z).
  { apply Z.bits_inj'. intros k Hk. rewrite Z.land_spec, Z.pow2_bits_eqb by exact Hi.
    destruct (Z.eqb_spec i k) as [->|N].
    - destruct (Z.testbit x k); cbn; [symmetry; apply Z.pow2_bits_true; exact Hk|symmetry; apply Z.bits_0].
    - rewrite andb_false_r. destruct (Z.testbit x i); [symmetry; rewrite Z.pow2_bits_eqb by exact Hi; apply Z.eqb_neq; exact N|symmetry; apply Z.bits_0]. }
  rewrite E. destruct (Z.testbit x i); [apply Z.ltb_lt, Z.pow_pos_nonneg; lia|reflexivity].
Qed.

Lemma points_spec i h rows : (0 <= i)%Z ->
  points (2 ^ i) h (map (fun r => nth 1 r 0%Q) rows) (map (fun r => nth 24 r 0%Q) rows) =
  map (fun r => (nth 1 r 0%Q, h)) (filter (fun r => Z.testbit (to_int (nth 24 r 0%Q)) i) rows).
Proof.
  intros Hi. unfold points. induction rows as [|r rows IH]; [reflexivity|]. cbn [map combine filter fst snd]. rewrite land_bit by exact Hi.
  destruct (Z.testbit (to_int (nth 24 r 0%Q)) i); cbn [map fst]; [f_equal|]; exact IH.
Qed.
