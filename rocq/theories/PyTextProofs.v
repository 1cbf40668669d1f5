(** The text of the Python tools and the row that is read from it. *)
From Coq Require Import List NArith ZArith QArith Qabs Qreals Ascii String Bool Lia.
From Verif Require Import TextModel TextSpec TextProofs TextProofsG TextMain HelperProofs PyTextModel.
Import ListNotations.
Open Scope list_scope.

Lemma words_f w k x r : text_words (percent_f w k x ++ str " " ++ r) = print_fixed k x :: text_words r.
Proof.
  unfold text_words. change (fun w : chars => match w with [] => false | _ :: _ => true end) with nonempty.
  change (str " " ++ r) with (" "%char :: r). unfold percent_f. apply words_pad_cons; [apply blank_not|]; apply plain_fixed.
Qed.
Lemma words_blank r : text_words (str " " ++ r) = text_words r.
Proof. reflexivity. Qed.
Lemma words_3 w k a b c r : text_words (percent_3 [] w k (a, b, c) ++ r) = print_fixed k a :: print_fixed k b :: print_fixed k c :: text_words r.
Proof. unfold percent_3. cbn [app]. rewrite <- ?app_assoc, !words_f. reflexivity. Qed.
Lemma words_b3 w k a b c r :
  text_words (percent_3 (str " ") w k (a, b, c) ++ r) = print_fixed k a :: print_fixed k b :: print_fixed k c :: text_words r.
Proof. unfold percent_3. rewrite <- ?app_assoc. repeat rewrite words_blank, words_f. reflexivity. Qed.
Lemma words_week z r : text_words (pad 5 (print_int z) ++ str " " ++ r) = print_int z :: text_words r.
Proof.
  unfold text_words. change (fun w : chars => match w with [] => false | _ :: _ => true end) with nonempty.
  change (str " " ++ r) with (" "%char :: r). apply words_pad_cons; [apply blank_not|]; apply plain_int.
Qed.
Lemma pad_short w t : (List.length t < S w)%nat -> pad (S w) t = str " " ++ pad w t.
Proof. intros H. unfold pad. rewrite Nat.sub_succ_l by lia. reflexivity. Qed.

Definition rest_words (p : pytext) : list text :=
  let '(v1, v2, v3) := p_vn p in let '(a1, a2, a3) := p_att p in let '(g1, g2, g3) := p_gb p in let '(b1, b2, b3) := p_ab p in
  map (print_fixed 15) [p_lat p; p_lon p] ++ [print_fixed 10 (p_h p)] ++ map (print_fixed 10) [v1; v2; v3] ++ map (print_fixed 6) [a1; a2; a3] ++
  map (print_fixed 0) [g1; g2; g3; b1; b2; b3].
Lemma pieces_blank : forall a r, pieces " "%char (a ++ " "%char :: r) = pieces " "%char a ++ pieces " "%char r.
Proof.
  induction a as [|c a IH]; intros r; [reflexivity|]. cbn [app pieces]. destruct (Ascii.eqb c " "%char); [rewrite IH; reflexivity|].
  rewrite IH. destruct (pieces " "%char a) as [|p ps] eqn:E; [exfalso; exact (pieces_nonnil _ _ E)|]. reflexivity.
Qed.
Lemma rest_line p before : text_words (before ++ percent_f 13 5 (p_time p) ++ str " " ++
  percent_f 20 15 (p_lat p) ++ str " " ++ percent_f 20 15 (p_lon p) ++ str " " ++ percent_f 16 10 (p_h p) ++ str " " ++
  percent_3 [] 20 10 (p_vn p) ++ percent_3 [] 12 6 (p_att p) ++
  percent_3 (str " ") 10 0 (p_gb p) ++ percent_3 (str " ") 10 0 (p_ab p)) =
  text_words (before ++ percent_f 13 5 (p_time p) ++ str " ") ++ rest_words p.
Proof.
  assert (G : forall a r, text_words (a ++ str " " ++ r) = text_words (a ++ str " ") ++ text_words r).
  { intros a r. unfold text_words. change (str " " ++ r) with (" "%char :: r). change (str " ") with [" "%char].
    rewrite !pieces_blank, !filter_app. cbn [pieces filter]. rewrite app_nil_r. reflexivity. }
  rewrite app_assoc, G, <- app_assoc. f_equal. unfold rest_words.
  destruct (p_vn p) as [[v1 v2] v3], (p_att p) as [[a1 a2] a3], (p_gb p) as [[g1 g2] g3], (p_ab p) as [[b1 b2] b3].
  rewrite !words_f, !words_3, words_b3. cbn [map app]. do 12 f_equal.
  rewrite <- (app_nil_r (percent_3 _ _ _ _)), words_b3. reflexivity.
Qed.

(** ** the first two words *)
Lemma dec_length fuel : forall n k, (n < 10 ^ N.of_nat (S k))%N -> (List.length (dec fuel n) <= S k)%nat.
Proof.
  induction fuel as [|f IH]; intros n k H; cbn [dec]; [simpl; lia|].
  destruct (N.ltb_spec n 10) as [L|L]; [simpl; lia|]. rewrite app_length. simpl List.length.
  destruct k as [|k]; [simpl in H; lia|].
  assert (n / 10 < 10 ^ N.of_nat (S k))%N.
  { apply N.div_lt_upper_bound; [lia|]. rewrite Nat2N.inj_succ, N.pow_succ_r' in H. exact H. }
  specialize (IH _ _ H0). lia.
Qed.
Lemma valof_bound : forall t acc, (valof acc t < (acc + 1) * 10 ^ N.of_nat (List.length t))%N.
Proof.
  induction t as [|c t IH]; intros acc; [simpl; lia|]. cbn [List.length]. rewrite Nat2N.inj_succ, N.pow_succ_r'.
  change (valof acc (c :: t)) with (valof (match digit_value c with Some d => 10 * acc + d | None => acc end)%N t).
  assert (P : (0 < 10 ^ N.of_nat (List.length t))%N) by (apply N.neq_0_lt_0, N.pow_nonzero; lia).
  destruct (digit_value c) as [d|] eqn:E.
  - assert (d <= 9)%N.
    { unfold digit_value in E. destruct (_ && _) eqn:B; [|discriminate]. apply andb_prop in B. destruct B as [_ B].
      apply N.leb_le in B. injection E as <-. lia. }
    specialize (IH (10 * acc + d)%N). nia.
  - specialize (IH acc). nia.
Qed.
Lemma decimal_least n k : (10 ^ N.of_nat k <= n)%N -> (k < List.length (decimal n))%nat.
Proof.
  intros H. destruct (decimal_spec n) as (_ & _ & V). specialize (V 0%N). pose proof (valof_bound (decimal n) 0%N) as B.
  rewrite V in B. assert (10 ^ N.of_nat k < 10 ^ N.of_nat (List.length (decimal n)))%N by lia.
  apply N.pow_lt_mono_r_iff in H0; lia.
Qed.
Lemma fixed_len s n d : List.length (print_fixed 5 (Fin s n d)) =
  (List.length (sign s) + List.length (decimal (round_even (n * 10 ^ 5) d / 10 ^ 5)) + 6)%nat.
Proof. unfold print_fixed. change (N.of_nat 5) with 5%N. rewrite !app_length, fixed_length. simpl (List.length (str ".")). lia. Qed.
(** a number between 0 and the length of a week takes at most twelve characters *)
Lemma short_time x : finite x -> (0 <= num_value x <= 604800)%Q -> (List.length (print_fixed 5 x) < 13)%nat.
Proof.
  destruct x as [s n d| |]; intros F; [|destruct F..]. intros [A B]. cbn [num_value] in *. rewrite fixed_len.
  pose proof (round_even_near (n * 10 ^ 5) d) as R. cbv zeta in R. set (m := round_even _ d) in *.
  destruct s.
  - assert (n = 0)%N by (unfold Qle, Qopp in A; simpl in A; lia). subst n.
    assert (m = 0)%N by (rewrite N.mul_0_l in R; nia). rewrite H. simpl. lia.
  - assert (m < 10 ^ 11)%N.
    { unfold Qle in B. simpl in B. rewrite N2Z.inj_mul in R. change (Z.of_N (10 ^ 5)) with 100000%Z in R. change (10 ^ 11)%N with 100000000000%N. nia. }
    assert (L : (List.length (decimal (m / 10 ^ 5)) <= 6)%nat).
    { apply dec_length. apply N.div_lt_upper_bound; [discriminate|]. exact H. }
    simpl (List.length (sign false)). lia.
Qed.
(** one from 1000000 on takes at least thirteen *)
Lemma long_time x : finite x -> (1000000 <= num_value x)%Q -> (13 <= List.length (print_fixed 5 x))%nat.
Proof.
  destruct x as [s n d| |]; intros F; [|destruct F..]. intros A. cbn [num_value] in A. rewrite fixed_len.
  pose proof (round_even_near (n * 10 ^ 5) d) as R. cbv zeta in R. set (m := round_even _ d) in *.
  assert (s = false) by (destruct s; [unfold Qle, Qopp in A; simpl in A; lia|reflexivity]). subst s.
  assert (H : (10 ^ 11 <= m)%N).
  { unfold Qle in A. simpl in A. rewrite N2Z.inj_mul in R. change (Z.of_N (10 ^ 5)) with 100000%Z in R. change (10 ^ 11)%N with 100000000000%N. nia. }
  assert (L : (6 < List.length (decimal (m / 10 ^ 5)))%nat).
  { apply decimal_least. apply N.div_le_lower_bound; [discriminate|]. exact H. }
  lia.
Qed.
Lemma first_words z x : (List.length (print_fixed 5 x) < 13)%nat ->
  text_words (pad 5 (print_int z) ++ percent_f 13 5 x ++ str " ") = [print_int z; print_fixed 5 x].
Proof.
  intros H. unfold percent_f. rewrite (pad_short 12) by exact H. rewrite <- app_assoc, words_week.
  change (pad 12 (print_fixed 5 x)) with (percent_f 12 5 x). rewrite <- (app_nil_r (str " ")), words_f. reflexivity.
Qed.
Lemma first_fused z x : (13 <= List.length (print_fixed 5 x))%nat ->
  text_words (pad 5 (print_int z) ++ percent_f 13 5 x ++ str " ") = [print_int z ++ print_fixed 5 x].
Proof.
  intros H. unfold percent_f, pad. replace (13 - _)%nat with 0%nat by lia. cbn [repeat app].
  unfold pad, text_words. change (fun w : chars => match w with [] => false | _ :: _ => true end) with nonempty.
  assert (E : forall k t, ~ In " "%char t -> t <> [] -> filter nonempty (pieces " "%char (repeat " "%char k ++ t ++ str " ")) = [t]).
  { intros k t Hn H0. induction k as [|k IH]; [|exact IH]. cbn [repeat app]. change (str " ") with (" "%char :: []).
    rewrite pieces_app by exact Hn. destruct t; [congruence|reflexivity]. }
  rewrite <- app_assoc. rewrite (app_assoc (print_int z)). apply E; [apply blank_not, Forall_app; split; [apply plain_int|apply plain_fixed]|].
  destruct (plain_int z) as [_ N0]. destruct (print_int z); [congruence|discriminate].
Qed.

(** ** the whole line *)
Definition values (p : pytext) : list num :=
  let '(v1, v2, v3) := p_vn p in let '(a1, a2, a3) := p_att p in let '(g1, g2, g3) := p_gb p in let '(b1, b2, b3) := p_ab p in
  [p_lat p; p_lon p; p_h p; v1; v2; v3; a1; a2; a3; g1; g2; g3; b1; b2; b3].
Definition places : list nat := [15; 15; 10; 10; 10; 10; 6; 6; 6; 0; 0; 0; 0; 0; 0]%nat.

Lemma numbers_of : forall (l : list (nat * num)), Forall finite (map snd l) ->
  exists row, all_some (map read_number (map (fun kx => print_fixed (fst kx) (snd kx)) l)) = Some row /\
    told (map (fun kx => Z.of_nat (fst kx)) l) (map snd l) row.
Proof.
  induction l as [|[k x] l IH]; intros F; [exists []; split; [reflexivity|constructor]|].
  cbn [map] in *. inversion F as [|? ? Fx Fl]; subst. destruct (IH Fl) as (row & E & G). destruct (fixed_told k x Fx) as (q & R & D).
  exists (q :: row). split; [|constructor; assumption]. cbn [all_some fst snd] in *. rewrite R, E. reflexivity.
Qed.
Lemma rest_back p : Forall finite (values p) -> exists row, all_some (map read_number (rest_words p)) = Some row /\
  told (map Z.of_nat places) (values p) row.
Proof.
  intros F. destruct (numbers_of (combine places (values p))) as (row & E & G).
  - unfold values in *. destruct (p_vn p) as [[v1 v2] v3], (p_att p) as [[a1 a2] a3], (p_gb p) as [[g1 g2] g3], (p_ab p) as [[b1 b2] b3]. exact F.
  - exists row. unfold values, rest_words in *.
    destruct (p_vn p) as [[v1 v2] v3], (p_att p) as [[a1 a2] a3], (p_gb p) as [[g1 g2] g3], (p_ab p) as [[b1 b2] b3]. split; [exact E|exact G].
Qed.
Lemma line_back p : finite (p_time p) -> (0 <= num_value (p_time p) <= 604800)%Q -> Forall finite (values p) ->
  exists w row, numbers (py_line p) = Some (w :: row) /\ (w == inject_Z (p_week p))%Q /\
    told (5%Z :: map Z.of_nat places) (p_time p :: values p) row.
Proof.
  intros Ft B F. destruct (rest_back p F) as (row & E & G). destruct (read_int (p_week p)) as (w & R & W).
  destruct (fixed_told 5 _ Ft) as (t & Rt & D). exists w, (t :: row). split; [|split; [exact W|constructor; assumption]].
  unfold numbers, py_line. rewrite rest_line, first_words by (apply short_time; assumption).
  cbn [app map all_some]. rewrite R, Rt, E. reflexivity.
Qed.
Lemma line_fused p : finite (p_time p) -> (1000000 <= num_value (p_time p))%Q -> Forall finite (values p) ->
  forall row, numbers (py_line p) = Some row -> exists w r, row = w :: r /\ told (map Z.of_nat places) (values p) r.
Proof.
  intros Ft B F row. destruct (rest_back p F) as (r & E & G). unfold numbers, py_line.
  rewrite rest_line, first_fused by (apply long_time; assumption). cbn [app map all_some]. rewrite E.
  destruct (read_number _) as [w|]; [|discriminate]. intros H. injection H as <-. eauto.
Qed.
Lemma pad_nl w t : ~ In newline t -> ~ In newline (pad w t).
Proof. intros H I. unfold pad in I. apply in_app_or in I. destruct I as [I|I]; [|exact (H I)]. apply repeat_spec in I. discriminate. Qed.
Lemma percent_nl w k x : ~ In newline (percent_f w k x).
Proof. apply pad_nl, nl_not, plain_fixed. Qed.
Lemma app_nl (a b : text) : ~ In newline a -> ~ In newline b -> ~ In newline (a ++ b).
Proof. intros A B I. apply in_app_or in I. tauto. Qed.
Lemma line_nl p : ~ In newline (py_line p).
Proof.
  assert (B : ~ In newline (str " ")) by (intros [X|[]]; discriminate).
  assert (T : forall b w k v, ~ In newline b -> ~ In newline (percent_3 b w k v)).
  { intros b w k [[x y] z] Hb. unfold percent_3. repeat first [assumption|apply percent_nl|apply app_nl]. }
  assert (N : ~ In newline []) by intros [].
  unfold py_line. apply app_nl; [apply pad_nl, nl_not, plain_int|].
  repeat first [assumption|apply percent_nl|apply T; assumption|apply app_nl].
Qed.
(** the words of [__str__] *)
Lemma str_back p : finite (p_time p) -> Forall finite (values p) ->
  exists w row, all_some (map read_number (pieces ","%char (py_str p))) = Some (w :: row) /\ (w == inject_Z (p_week p))%Q /\
    told (map Z.of_nat [4; 8; 8; 4; 4; 4; 4; 4; 4; 4]%nat) (p_time p :: firstn 9 (values p)) row.
Proof.
  intros Ft F.
  assert (J : forall l x, (forall t, In t (x :: l) -> ~ In ","%char t) -> pieces ","%char (join ","%char (x :: l)) = x :: l).
  { induction l as [|y l IH]; intros x H.
    - unfold join. cbn [map List.concat]. rewrite app_nil_r. apply pieces_none, H. left. reflexivity.
    - assert (X : join ","%char (x :: y :: l) = x ++ ","%char :: join ","%char (y :: l)).
      { unfold join. cbn [map List.concat]. reflexivity. }
      rewrite X, pieces_app by (apply H; left; reflexivity). f_equal. apply IH. intros t I. apply H. right. exact I. }
  unfold py_str, values in *. destruct (p_vn p) as [[v1 v2] v3], (p_att p) as [[a1 a2] a3], (p_gb p) as [[g1 g2] g3], (p_ab p) as [[b1 b2] b3].
  rewrite J. 2:{ intros t I. destruct I as [<-|I]; [apply comma_not, plain_int|]. cbn [In] in I.
    repeat match type of I with _ \/ _ => destruct I as [<-|I]; [apply comma_not, plain_fixed|] end. destruct I. }
  destruct (read_int (p_week p)) as (w & R & W).
  destruct (numbers_of (combine [4; 8; 8; 4; 4; 4; 4; 4; 4; 4]%nat [p_time p; p_lat p; p_lon p; p_h p; v1; v2; v3; a1; a2; a3])) as (row & E & G).
  { cbn [combine map snd]. repeat match goal with H : Forall finite (_ :: _) |- _ => inversion H; clear H; subst end. repeat (constructor; [assumption|]). constructor. }
  exists w, row. split; [|split; [exact W|exact G]]. cbn [combine map fst snd] in E. cbn [map all_some] in *. rewrite R. 
  cbn [all_some] in E. rewrite E. reflexivity.
Qed.
