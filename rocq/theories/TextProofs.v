(** Printing numbers and reading them back. *)
From Coq Require Import List NArith ZArith QArith Qabs Qpower Ascii String Bool Lia Lqa.
From Verif Require Import TextModel TextSpec.
Import ListNotations.
Open Scope N_scope.

Definition isdig (c : ascii) : Prop := exists d, d < 10 /\ c = digit d.
Definition valof (acc : N) (t : text) : N :=
  fold_left (fun a c => match digit_value c with Some d => 10 * a + d | None => a end) t acc.

Lemma digit_value_digit d : d < 10 -> digit_value (digit d) = Some d.
Proof.
  intros H. unfold digit_value, digit.
  rewrite N_ascii_embedding by lia.
  replace (48 <=? 48 + d) with true by (symmetry; apply N.leb_le; lia).
  replace (48 + d <=? 57) with true by (symmetry; apply N.leb_le; lia).
  cbn [andb]. f_equal. lia.
Qed.

Lemma take_digits_app t : forall acc cnt r, Forall isdig t ->
  take_digits acc cnt (t ++ r) = take_digits (valof acc t) (cnt + List.length t) r.
Proof.
  induction t as [|c t IH]; intros acc cnt r H; simpl.
  - rewrite Nat.add_0_r. reflexivity.
  - inversion H as [|? ? (d & Hd & ->) Ht]; subst.
    rewrite digit_value_digit by assumption. rewrite IH by assumption. f_equal. lia.
Qed.

Lemma valof_app acc a b : valof acc (a ++ b) = valof (valof acc a) b.
Proof. apply fold_left_app. Qed.

Lemma valof_digit acc d : d < 10 -> valof acc [digit d] = 10 * acc + d.
Proof. intros H. unfold valof, fold_left. rewrite digit_value_digit by assumption. reflexivity. Qed.

Lemma isdig_digit d : d < 10 -> isdig (digit d). Proof. exists d; auto. Qed.

Lemma size_bound n : n < 2 ^ N.of_nat (N.size_nat n).
Proof.
  destruct n as [|p]; [reflexivity|]. simpl N.size_nat.
  induction p as [p IH|p IH|]; simpl Pos.size_nat; rewrite ?Nat2N.inj_succ, ?N.pow_succ_r'; try lia.
Qed.

Lemma pow2_10 k : 2 ^ k <= 10 ^ k.
Proof. apply N.pow_le_mono_l. lia. Qed.

Lemma dec_spec fuel : forall n, n < 10 * 10 ^ N.of_nat fuel ->
  Forall isdig (dec fuel n) /\ dec fuel n <> [] /\
  forall acc, valof acc (dec fuel n) = acc * 10 ^ N.of_nat (List.length (dec fuel n)) + n.
Proof.
  induction fuel as [|k IH]; intros n H; cbn [dec].
  - assert (n < 10) by (simpl in H; lia).
    rewrite N.mod_small by assumption.
    split; [constructor; [apply isdig_digit; assumption|constructor]|split; [discriminate|]].
    intros acc. rewrite valof_digit by assumption. cbn [List.length]. change (N.of_nat 1) with 1. rewrite N.pow_1_r. lia.
  - destruct (N.ltb_spec n 10) as [L|L].
    + split; [constructor; [apply isdig_digit; assumption|constructor]|split; [discriminate|]].
      intros acc. rewrite valof_digit by assumption. cbn [List.length]. change (N.of_nat 1) with 1. rewrite N.pow_1_r. lia.
    + assert (Hq : n / 10 < 10 * 10 ^ N.of_nat k).
      { apply N.div_lt_upper_bound; [lia|]. rewrite Nat2N.inj_succ, N.pow_succ_r' in H. lia. }
      destruct (IH _ Hq) as (A & B & C).
      assert (Hm : n mod 10 < 10) by (apply N.mod_lt; lia).
      split; [apply Forall_app; split; [exact A|constructor; [apply isdig_digit; exact Hm|constructor]]|].
      split; [destruct (dec k (n / 10)); discriminate|].
      intros acc. rewrite valof_app, valof_digit by exact Hm. rewrite C.
      rewrite app_length. cbn [List.length]. rewrite Nat.add_1_r, Nat2N.inj_succ, N.pow_succ_r'.
      pose proof (N.div_mod' n 10). lia.
Qed.

Lemma decimal_spec n : Forall isdig (decimal n) /\ decimal n <> [] /\
  forall acc, valof acc (decimal n) = acc * 10 ^ N.of_nat (List.length (decimal n)) + n.
Proof.
  apply dec_spec. pose proof (size_bound n). pose proof (pow2_10 (N.of_nat (N.size_nat n))). lia.
Qed.

Lemma fixed_length k : forall n, List.length (fixed_digits k n) = k.
Proof. induction k; intros; simpl; [|rewrite app_length, IHk; simpl]; lia. Qed.

Lemma fixed_spec k : forall n, Forall isdig (fixed_digits k n) /\
  forall acc, valof acc (fixed_digits k n) = acc * 10 ^ N.of_nat k + n mod 10 ^ N.of_nat k.
Proof.
  induction k as [|k IH]; intros n; cbn [fixed_digits].
  - split; [constructor|]. intros acc. simpl. rewrite N.mod_1_r. lia.
  - destruct (IH (n / 10)) as [A C]. assert (Hm : n mod 10 < 10) by (apply N.mod_lt; lia).
    split; [apply Forall_app; split; [exact A|constructor; [apply isdig_digit; exact Hm|constructor]]|].
    intros acc. rewrite valof_app, valof_digit by exact Hm. rewrite C, Nat2N.inj_succ, N.pow_succ_r'.
    assert (P : 10 ^ N.of_nat k <> 0) by (apply N.pow_nonzero; lia).
    rewrite (N.mod_mul_r n 10 (10 ^ N.of_nat k)) by (auto; lia). lia.
Qed.

(** rounding *)
Lemma round_even_near n d : let m := round_even n d in
  (2 * Z.abs (Z.of_N m * Zpos d - Z.of_N n) <= Zpos d)%Z.
Proof.
  cbv zeta. unfold round_even.
  pose proof (N.div_mod' n (Npos d)) as E. assert (L : n mod Npos d < Npos d) by (apply N.mod_lt; discriminate).
  set (q := n / Npos d) in *. set (r := n mod Npos d) in *.
  assert (E' : Z.of_N n = (Zpos d * Z.of_N q + Z.of_N r)%Z) by lia.
  destruct (N.compare_spec (2 * r) (Npos d)); [destruct (N.even q)|..];
    rewrite ?N2Z.inj_add; simpl Z.of_N at 2; nia.
Qed.

(** reading a printed number *)
Lemma isdig_not c : isdig c -> forall x, digit_value x = None -> c <> x.
Proof. intros (d & Hd & ->) x Hx E. rewrite <- E, digit_value_digit in Hx by assumption. discriminate. Qed.

Lemma take_sign_sign s t : Forall isdig t -> t <> [] -> forall r, take_sign (sign s ++ t ++ r) = (s, t ++ r).
Proof.
  intros H N0 r. destruct s; simpl; [reflexivity|].
  destruct t as [|c t]; [congruence|]. inversion H; subst. simpl.
  destruct (Ascii.eqb_spec c "-"%char) as [->|].
  - exfalso. apply (isdig_not _ H2 "-"%char); reflexivity.
  - destruct (Ascii.eqb_spec c "+"%char) as [->|]; [|reflexivity].
    exfalso. apply (isdig_not _ H2 "+"%char); reflexivity.
Qed.

Definition qsign (s : bool) (m : N) : Q := if s then Qopp (inject_Z (Z.of_N m)) else inject_Z (Z.of_N m).

(** digits, a point and digits *)
Lemma read_point s i f m rest e : Forall isdig i -> i <> [] -> Forall isdig f ->
  valof 0 (i ++ f) = m -> read_exponent rest = Some e -> take_digits m (List.length f) rest = (m, List.length f, rest) ->
  read_number (sign s ++ i ++ str "." ++ f ++ rest) = Some (qsign s m * pow10 (e - Z.of_nat (List.length f)))%Q.
Proof.
  intros Hi Ni Hf Hv He Hr. unfold read_number. rewrite take_sign_sign by assumption.
  rewrite take_digits_app by assumption.
  change (str "." ++ f ++ rest) with ("."%char :: f ++ rest). cbn [take_digits].
  change (digit_value ".") with (@None N). cbv beta iota.
  destruct i as [|c i]; [congruence|]. cbn [List.length Nat.add].
  change (Ascii.eqb "."%char "."%char) with true. cbv beta iota.
  rewrite take_digits_app by assumption. rewrite <- valof_app, Hv.
  rewrite Nat.add_0_l, Hr, He. reflexivity.
Qed.

Lemma read_nopoint s i m rest e : Forall isdig i -> i <> [] -> valof 0 i = m ->
  read_exponent rest = Some e ->
  read_number (sign s ++ i ++ rest) = Some (qsign s m * pow10 (e - 0))%Q.
Proof.
  intros Hi Ni Hv He. unfold read_number. rewrite take_sign_sign by assumption.
  rewrite take_digits_app by assumption. rewrite Hv.
  destruct i as [|c i]; [congruence|]. cbn [List.length Nat.add].
  destruct rest as [|x r].
  - cbn [take_digits]. rewrite He. reflexivity.
  - cbn [read_exponent] in He. destruct (Ascii.eqb_spec x "e"%char) as [->|]; [|discriminate].
    cbn [take_digits]. change (digit_value "e") with (@None N). cbv beta iota.
    change (Ascii.eqb "e"%char "."%char) with false. cbv beta iota.
    change (read_exponent ("e"%char :: r)) with
      (let '(neg, r1) := take_sign r in
      match take_digits 0 0 r1 with
      | (v, S _, []) => Some (if neg then (- Z.of_N v)%Z else Z.of_N v)
      | _ => None
      end). rewrite He. reflexivity.
Qed.

Definition num_value (x : num) : Q :=
  match x with Fin s n d => if s then Qopp (Z.of_N n # d) else (Z.of_N n # d) | _ => 0%Q end.

Lemma pow10_pos e : (0 < pow10 e)%Q.
Proof. unfold pow10. apply Qpower_0_lt. reflexivity. Qed.

Lemma pow10_plus a b : (pow10 (a + b) == pow10 a * pow10 b)%Q.
Proof. unfold pow10. apply Qpower_plus. discriminate. Qed.

Lemma pow10_nat k : (pow10 (Z.of_nat k) == inject_Z (Z.of_N (10 ^ N.of_nat k)))%Q.
Proof.
  unfold pow10. rewrite N2Z.inj_pow, nat_N_Z. change (10 # 1)%Q with (inject_Z 10).
  rewrite <- Zpower_Qpower by lia. reflexivity.
Qed.

Lemma pow10_inv k : (pow10 (- k) == / pow10 k)%Q.
Proof. unfold pow10. apply Qpower_opp. Qed.

Lemma read_fixed k s n d :
  read_number (print_fixed k (Fin s n d)) =
  Some (qsign s (round_even (n * 10 ^ N.of_nat k) d) * pow10 (- Z.of_nat k))%Q.
Proof.
  unfold print_fixed. set (m := round_even _ d).
  destruct (decimal_spec (m / 10 ^ N.of_nat k)) as (Hi & Ni & Vi).
  destruct k as [|k].
  - change (10 ^ N.of_nat 0) with 1 in *. rewrite N.div_1_r in *.
    pose proof (read_nopoint s (decimal m) m [] 0 Hi Ni (Vi 0) eq_refl) as E. exact E.
  - destruct (fixed_spec (S k) m) as [Hf Vf].
    assert (V : valof 0 (decimal (m / 10 ^ N.of_nat (S k)) ++ fixed_digits (S k) m) = m).
    { rewrite valof_app, Vi, Vf, N.mul_0_l, N.add_0_l.
      pose proof (N.div_mod' m (10 ^ N.of_nat (S k))). lia. }
    pose proof (read_point s _ _ m [] 0 Hi Ni Hf V eq_refl eq_refl) as E.
    rewrite app_nil_r, fixed_length in E. exact E.
Qed.

Lemma Qabs_le_iff x y : (Qabs x <= y <-> - y <= x /\ x <= y)%Q.
Proof. split; [apply Qabs_Qle_condition|intros; apply Qabs_Qle_condition; assumption]. Qed.

(** scaled numbers: m within half of n * p / d gives m / p within half a unit of n / d *)
Lemma near_scaled (n m : N) d (p : N) : 0 < p -> (2 * Z.abs (Z.of_N m * Zpos d - Z.of_N n * Z.of_N p) <= Zpos d)%Z ->
  (Qabs (inject_Z (Z.of_N m) * / inject_Z (Z.of_N p) - (Z.of_N n # d)) <= (1 # 2) * / inject_Z (Z.of_N p))%Q.
Proof.
  intros Hp H. destruct p as [|p]; [lia|].
  change (Z.of_N (Npos p)) with (Zpos p) in *.
  change (/ inject_Z (Zpos p))%Q with (1 # p)%Q.
  apply Qabs_le_iff. unfold Qle, Qminus, Qplus, Qmult, Qopp, inject_Z; simpl Qnum; simpl Qden.
  rewrite ?Pos2Z.inj_mul. split; nia.
Qed.

Lemma fixed_near k s n d : exists q, read_number (print_fixed k (Fin s n d)) = Some q /\
  decimals (Z.of_nat k) (num_value (Fin s n d)) q.
Proof.
  eexists; split; [apply read_fixed|]. unfold decimals.
  set (m := round_even _ d).
  assert (H := round_even_near (n * 10 ^ N.of_nat k) d). cbv zeta in H. fold m in H. rewrite N2Z.inj_mul in H.
  assert (P : 0 < 10 ^ N.of_nat k) by (apply N.neq_0_lt_0, N.pow_nonzero; lia).
  apply near_scaled in H; [|assumption].
  rewrite !pow10_inv, !pow10_nat. set (p := (/ inject_Z _)%Q) in *.
  unfold qsign, num_value. destruct s; [|exact H].
  rewrite <- Qabs_opp. setoid_replace (- (- inject_Z (Z.of_N m) * p - - (Z.of_N n # d)))%Q
    with (inject_Z (Z.of_N m) * p - (Z.of_N n # d))%Q by ring. exact H.
Qed.

Lemma read_int z : exists q, read_number (print_int z) = Some q /\ (q == inject_Z z)%Q.
Proof.
  unfold print_int. destruct (decimal_spec (Z.abs_N z)) as (Hi & Ni & Vi).
  pose proof (read_nopoint (z <? 0)%Z _ _ [] 0 Hi Ni (Vi 0) eq_refl) as E.
  rewrite app_nil_r in E. eexists; split; [exact E|].
  rewrite N.mul_0_l, N.add_0_l. change (pow10 (0 - 0)) with 1%Q. rewrite Qmult_1_r.
  unfold qsign. destruct (Z.ltb_spec z 0); rewrite N2Z.inj_abs_N; unfold Qeq, inject_Z, Qopp; simpl; lia.
Qed.

(** * lines, words, cells *)
Lemma pieces_none sep t : ~ In sep t -> pieces sep t = [t].
Proof.
  induction t as [|c t IH]; intros H; simpl; [reflexivity|].
  destruct (Ascii.eqb_spec c sep) as [->|]; [exfalso; apply H; left; reflexivity|].
  rewrite IH; [reflexivity|]. intros X; apply H; right; exact X.
Qed.

Lemma pieces_app sep a b : ~ In sep a -> pieces sep (a ++ sep :: b) = a :: pieces sep b.
Proof.
  induction a as [|c t IH]; intros H; simpl.
  - rewrite Ascii.eqb_refl. reflexivity.
  - destruct (Ascii.eqb_spec c sep) as [->|]; [exfalso; apply H; left; reflexivity|].
    rewrite IH; [reflexivity|]. intros X; apply H; right; exact X.
Qed.

Lemma pieces_nonnil sep t : pieces sep t <> [].
Proof. destruct t; simpl; [discriminate|]. destruct (Ascii.eqb _ _); [discriminate|]. destruct (pieces sep t); discriminate. Qed.

Lemma removelast_cons {A} (x : A) l : l <> [] -> removelast (x :: l) = x :: removelast l.
Proof. destruct l; [congruence|reflexivity]. Qed.

Lemma lines_of {A} (f : A -> text) rs : (forall r, In r rs -> ~ In newline (f r)) ->
  text_lines (List.concat (map (fun r => f r ++ [newline]) rs)) = map f rs.
Proof.
  unfold text_lines. induction rs as [|r rs IH]; intros H; [reflexivity|].
  cbn [map List.concat]. rewrite <- app_assoc. change ([newline] ++ ?x) with (newline :: x).
  rewrite pieces_app by (apply H; left; reflexivity).
  rewrite removelast_cons by apply pieces_nonnil. f_equal. apply IH. intros; apply H; right; assumption.
Qed.

Definition nonempty (w : text) : bool := match w with [] => false | _ => true end.

Lemma words_pad w t : ~ In " "%char t -> t <> [] ->
  filter nonempty (pieces " "%char (pad w t)) = [t].
Proof.
  intros H N0. unfold pad. induction (w - List.length t)%nat as [|k IH]; simpl repeat; simpl app.
  - rewrite pieces_none by assumption. simpl. destruct t; [congruence|reflexivity].
  - cbn [pieces]. rewrite Ascii.eqb_refl. cbn [filter nonempty]. exact IH.
Qed.

Lemma words_pad_cons w t r : ~ In " "%char t -> t <> [] ->
  filter nonempty (pieces " "%char (pad w t ++ " "%char :: r)) = t :: filter nonempty (pieces " "%char r).
Proof.
  intros H N0. unfold pad. induction (w - List.length t)%nat as [|k IH]; simpl repeat; simpl app.
  - rewrite pieces_app by assumption. simpl. destruct t; [congruence|reflexivity].
  - cbn [pieces]. rewrite Ascii.eqb_refl. cbn [filter nonempty]. exact IH.
Qed.

Lemma pad_0 t : pad 0 t = t. Proof. reflexivity. Qed.

(** characters of printed numbers *)
Definition plain (c : ascii) : Prop := isdig c \/ In c (str "-+.einfa").

Lemma plain_digs t : Forall isdig t -> Forall plain t.
Proof. apply Forall_impl. left; assumption. Qed.

Lemma plain_in t c : Forall plain t -> digit_value c = None -> ~ In c (str "-+.einfa") -> ~ In c t.
Proof.
  intros H D X I. rewrite Forall_forall in H. destruct (H _ I) as [(d & Hd & E)|]; [|auto].
  rewrite E, digit_value_digit in D by assumption. discriminate.
Qed.

Lemma plain_sign s : Forall plain (sign s).
Proof. destruct s; simpl; repeat constructor; right; simpl; auto. Qed.

Lemma plain_int z : Forall plain (print_int z) /\ print_int z <> [].
Proof.
  unfold print_int. destruct (decimal_spec (Z.abs_N z)) as (Hi & Ni & _). split.
  - apply Forall_app; split; [apply plain_sign|apply plain_digs, Hi].
  - destruct (sign _); [exact Ni|discriminate].
Qed.

Ltac plain_str := unfold str; simpl; repeat constructor; right; simpl; tauto.

Lemma plain_fixed k x : Forall plain (print_fixed k x) /\ print_fixed k x <> [].
Proof.
  destruct x as [s n d|s|s]; cbn [print_fixed].
  - set (m := round_even _ _). destruct (decimal_spec (m / 10 ^ N.of_nat k)) as (Hi & Ni & _). split.
    + apply Forall_app; split; [apply plain_sign|]. apply Forall_app; split; [apply plain_digs, Hi|].
      destruct k; [constructor|]. apply Forall_app; split; [plain_str|apply plain_digs, fixed_spec].
    + destruct (sign s); [|discriminate]. destruct (decimal _); [congruence|discriminate].
  - split; [apply Forall_app; split; [apply plain_sign|plain_str]|destruct s; discriminate].
  - split; [apply Forall_app; split; [apply plain_sign|plain_str]|destruct s; discriminate].
Qed.

Lemma blank_not t : Forall plain t -> ~ In " "%char t.
Proof. intros H. apply (plain_in t " "%char H); [reflexivity|]. simpl. intuition discriminate. Qed.
Lemma nl_not t : Forall plain t -> ~ In newline t.
Proof. intros H. apply (plain_in t newline H); [reflexivity|]. simpl. intuition discriminate. Qed.
Lemma comma_not t : Forall plain t -> ~ In ","%char t.
Proof. intros H. apply (plain_in t ","%char H); [reflexivity|]. simpl. intuition discriminate. Qed.

Lemma nl_pad w t : ~ In newline t -> ~ In newline (pad w t).
Proof. intros H I. apply in_app_or in I. destruct I as [I|I]; [|auto]. apply repeat_spec in I. discriminate. Qed.

Definition fields (r : result) : list text :=
  let '(v1, v2, v3) := r_vn r in let '(a1, a2, a3) := r_atti r in
  [print_int (r_week r); print_fixed 6 (r_gpst r); print_fixed 12 (r_lat r); print_fixed 12 (r_lon r); print_fixed 4 (r_height r);
   print_fixed 6 v1; print_fixed 6 v2; print_fixed 6 v3; print_fixed 6 a1; print_fixed 6 a2; print_fixed 6 a3;
   print_int (Z.of_N (r_mode r)); print_int (Z.of_N (r_sensors r))].

Lemma result_words r : text_words (print_result r) = fields r.
Proof.
  unfold text_words. change (fun w : chars => match w with [] => false | _ :: _ => true end) with nonempty.
  unfold print_result, fields. destruct (r_vn r) as [[v1 v2] v3], (r_atti r) as [[a1 a2] a3].
  unfold join. cbn [map List.concat]. rewrite <- !app_comm_cons, !app_nil_r.
  rewrite <- (pad_0 (print_fixed 12 (r_lat r))), <- (pad_0 (print_fixed 12 (r_lon r))),
    <- (pad_0 (print_fixed 4 (r_height r))), <- (pad_0 (print_int (Z.of_N (r_mode r)))),
    <- (pad_0 (print_int (Z.of_N (r_sensors r)))).
  do 12 (rewrite words_pad_cons by (first [apply blank_not|idtac]; first [apply plain_int | apply plain_fixed])).
  rewrite words_pad by (first [apply blank_not|idtac]; first [apply plain_int | apply plain_fixed]).
  rewrite !pad_0. reflexivity.
Qed.

Lemma result_nl r : ~ In newline (print_result r).
Proof.
  unfold print_result. destruct (r_vn r) as [[v1 v2] v3], (r_atti r) as [[a1 a2] a3].
  unfold join. cbn [map List.concat]. rewrite app_nil_r. intros I.
  repeat (apply in_app_or in I; destruct I as [I|I];
    [revert I; repeat (apply nl_pad || (intros [I|I]; [discriminate|revert I])); try apply nl_not;
     first [apply plain_int | apply plain_fixed]|]).
  destruct I as [I|I]; [discriminate|]. revert I. apply nl_not, plain_int.
Qed.
