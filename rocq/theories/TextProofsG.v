(** The default number format of streams: six significant digits. *)
From Coq Require Import List NArith ZArith QArith Qabs Qpower Ascii String Bool Lia Lqa.
From Verif Require Import TextModel TextSpec TextProofs.
Import ListNotations.
Open Scope N_scope.

Definition ratio (n : N) (d : positive) : Q := Z.of_N n # d.

Lemma pow10_N p : (pow10 (Z.of_N p) == inject_Z (Z.of_N (10 ^ p)))%Q.
Proof. rewrite <- (N2Nat.id p) at 2. rewrite <- pow10_nat. rewrite N_nat_Z. reflexivity. Qed.

Lemma pow10N_pos p : exists q, 10 ^ p = Npos q.
Proof. assert (10 ^ p <> 0) by (apply N.pow_nonzero; lia). destruct (10 ^ p) as [|q]; [congruence|]. eauto. Qed.

Lemma le10_spec e n d : le10 e n d = true <-> (pow10 e <= ratio n d)%Q.
Proof.
  unfold le10, ratio. destruct e as [|p|p].
  - rewrite N.leb_le. change (pow10 0) with 1%Q. unfold Qle; simpl. change (10 ^ Z.to_N 0) with 1. lia.
  - rewrite N.leb_le. change (Z.pos p) with (Z.of_N (N.pos p)). rewrite pow10_N, N2Z.id. unfold Qle, inject_Z; simpl Qnum; simpl Qden.
    rewrite Z.mul_1_r. split; intros; nia.
  - rewrite N.leb_le. change (Z.neg p) with (- Z.of_N (N.pos p))%Z. rewrite pow10_inv, pow10_N.
    destruct (pow10N_pos (N.pos p)) as [q Hq]. rewrite Hq. unfold Qle, inject_Z, Qinv; simpl. lia.
Qed.

Lemma le10_false e n d : le10 e n d = false <-> (ratio n d < pow10 e)%Q.
Proof.
  rewrite <- not_true_iff_false, le10_spec. split; [apply Qnot_le_lt|apply Qlt_not_le].
Qed.

Lemma search_spec n d fuel : forall e,
  le10 (e + 1) n d = false -> le10 (e - Z.of_nat fuel) n d = true ->
  le10 (search fuel e n d) n d = true /\ le10 (search fuel e n d + 1) n d = false.
Proof.
  induction fuel as [|k IH]; intros e A B; cbn [search].
  - rewrite Z.sub_0_r in B. auto.
  - destruct (le10 e n d) eqn:E; [auto|]. apply IH.
    + replace (e - 1 + 1)%Z with e by lia. exact E.
    + replace (e - 1 - Z.of_nat k)%Z with (e - Z.of_nat (S k))%Z by lia. exact B.
Qed.

Lemma exponent_spec n d : 0 < n -> (pow10 (exponent n d) <= ratio n d < pow10 (exponent n d + 1))%Q.
Proof.
  intros Hn.
  assert (X : le10 (exponent n d) n d = true /\ le10 (exponent n d + 1) n d = false).
  { unfold exponent. apply search_spec.
    - apply le10_false. replace (Z.of_nat (N.size_nat n) + 1)%Z with (Z.of_nat (S (N.size_nat n))) by lia.
      rewrite pow10_nat, Nat2N.inj_succ, N.pow_succ_r'. unfold Qlt, ratio, inject_Z; cbn [Qnum Qden].
      pose proof (size_bound n) as S0. pose proof (pow2_10 (N.of_nat (N.size_nat n))) as S1.
      set (p := 10 ^ N.of_nat (N.size_nat n)) in *. assert (S2 : n < p) by lia. clearbody p. clear S0 S1.
      rewrite N2Z.inj_mul. change (Z.of_N 10) with 10%Z. assert (Z.of_N n < Z.of_N p)%Z by lia. set (a := Z.of_N p) in *. set (b := Z.of_N n) in *. assert (0 <= b)%Z by (unfold b; lia). assert (1 <= Z.pos d)%Z by lia. nia.
    - apply le10_spec.
      replace (Z.of_nat (N.size_nat n) - Z.of_nat (N.size_nat n + Pos.size_nat d))%Z with (- Z.of_nat (Pos.size_nat d))%Z by lia.
      rewrite pow10_inv, pow10_nat.
      pose proof (size_bound (Npos d)) as S. pose proof (pow2_10 (N.of_nat (N.size_nat (Npos d)))) as S'.
      change (N.size_nat (N.pos d)) with (Pos.size_nat d) in *.
      destruct (pow10N_pos (N.of_nat (Pos.size_nat d))) as [q Hq]. rewrite Hq in *.
      unfold Qle, ratio, inject_Z, Qinv; simpl. nia. }
  destruct X as [A B]. split; [apply le10_spec, A|apply le10_false, B].
Qed.

Lemma Qpos_mul_le (a b c : Q) : (0 < c -> a * c <= b * c -> a <= b)%Q.
Proof. intros H. apply Qmult_le_r. exact H. Qed.

(** scaling and rounding *)
Lemma scaled_near k n d : (Qabs (inject_Z (Z.of_N (scaled k n d)) - ratio n d * pow10 k) <= 1 # 2)%Q.
Proof.
  unfold scaled, ratio.
  assert (G : forall j, (0 <= j)%Z -> (Qabs (inject_Z (Z.of_N (round_even (n * 10 ^ Z.to_N j) d)) - (Z.of_N n # d) * pow10 j) <= 1 # 2)%Q).
  { intros j Hj. pose proof (round_even_near (n * 10 ^ Z.to_N j) d) as H. cbv zeta in H. set (m := round_even _ _) in *.
    assert (PJ : (pow10 j == inject_Z (Z.of_N (10 ^ Z.to_N j)))%Q) by (rewrite <- pow10_N, Z2N.id by exact Hj; reflexivity).
    rewrite PJ.
    set (p := 10 ^ Z.to_N j) in *. rewrite N2Z.inj_mul in H.
    apply Qabs_le_iff. unfold Qle, Qminus, Qplus, Qmult, Qopp, inject_Z; simpl Qnum; simpl Qden. rewrite ?Pos2Z.inj_mul.
    split; nia. }
  destruct k as [|p|p]; [apply (G 0%Z); lia|apply (G (Zpos p)); lia|].
  set (t := Z.to_pos _). pose proof (round_even_near n (d * t)) as H. cbv zeta in H. set (m := round_even _ _) in *.
  change (Z.neg p) with (- Z.pos p)%Z. rewrite pow10_inv.
  assert (T : (pow10 (Z.pos p) == inject_Z (Zpos t))%Q).
  { unfold t. rewrite Z2Pos.id by (apply Z.pow_pos_nonneg; lia). unfold pow10.
    change (10 # 1)%Q with (inject_Z 10). rewrite <- Zpower_Qpower by lia. reflexivity. }
  rewrite T. change (/ inject_Z (Zpos t))%Q with (1 # t)%Q.
  apply Qabs_le_iff. unfold Qle, Qminus, Qplus, Qmult, Qopp, inject_Z; simpl Qnum; simpl Qden. rewrite ?Pos2Z.inj_mul in *.
  split; nia.
Qed.

Lemma pow10_mono a b : (a <= b)%Z -> (pow10 a <= pow10 b)%Q.
Proof.
  intros H. replace b with (a + Z.of_nat (Z.to_nat (b - a)))%Z by lia. rewrite pow10_plus, pow10_nat.
  pose proof (pow10_pos a). rewrite <- (Qmult_1_r (pow10 a)) at 1. apply Qmult_le_l; [assumption|].
  unfold Qle, inject_Z; simpl Qnum; simpl Qden.
  destruct (pow10N_pos (N.of_nat (Z.to_nat (b - a)))) as [q Hq]. rewrite Hq. lia.
Qed.

Lemma significand_spec n d : 0 < n -> let '(m, e) := significand n d in
  100000 <= m < 1000000 /\
  (Qabs (inject_Z (Z.of_N m) * pow10 (e - 5) - ratio n d) <= (5 # 1000000) * ratio n d)%Q.
Proof.
  intros Hn. unfold significand. destruct (exponent_spec n d Hn) as [A B]. set (e := exponent n d) in *.
  pose proof (scaled_near (5 - e) n d) as S. set (m := scaled (5 - e) n d) in *.
  set (x := ratio n d) in *.
  set (u := pow10 (5 - e)) in *.
  assert (Hu : (0 < u)%Q) by apply pow10_pos.
  assert (E5 : (pow10 (e - 5) * u == 1)%Q).
  { unfold u. rewrite <- pow10_plus. replace (e - 5 + (5 - e))%Z with 0%Z by lia. reflexivity. }
  assert (Ee : (pow10 e * u == 100000 # 1)%Q).
  { unfold u. rewrite <- pow10_plus. replace (e + (5 - e))%Z with 5%Z by lia. reflexivity. }
  assert (Ee1 : (pow10 (e + 1) * u == 1000000 # 1)%Q).
  { unfold u. rewrite <- pow10_plus. replace (e + 1 + (5 - e))%Z with 6%Z by lia. reflexivity. }
  assert (L : (100000 # 1 <= x * u)%Q) by (rewrite <- Ee; apply Qmult_le_r; assumption).
  assert (U : (x * u < 1000000 # 1)%Q) by (rewrite <- Ee1; apply Qmult_lt_r; assumption).
  apply Qabs_le_iff in S. destruct S as [S1 S2].
  assert (M1 : 100000 <= m).
  { assert (Y : (99999 # 1 < inject_Z (Z.of_N m))%Q) by lra. unfold Qlt, inject_Z in Y; simpl in Y. lia. }
  assert (M2 : m <= 1000000).
  { assert (Y : (inject_Z (Z.of_N m) < 1000001 # 1)%Q) by lra. unfold Qlt, inject_Z in Y; simpl in Y. lia. }
  assert (N0 : (Qabs (inject_Z (Z.of_N m) * pow10 (e - 5) - x) <= (5 # 1000000) * x)%Q).
  { assert (H5 : (0 < pow10 (e - 5))%Q) by apply pow10_pos.
    assert (Hx : (0 <= x)%Q) by (pose proof (pow10_pos e); lra).
    apply Qabs_le_iff. split; apply (Qpos_mul_le _ _ u Hu).
    - setoid_replace ((inject_Z (Z.of_N m) * pow10 (e - 5) - x) * u)%Q
        with (inject_Z (Z.of_N m) * (pow10 (e - 5) * u) - x * u)%Q by ring.
      rewrite E5. lra.
    - setoid_replace ((inject_Z (Z.of_N m) * pow10 (e - 5) - x) * u)%Q
        with (inject_Z (Z.of_N m) * (pow10 (e - 5) * u) - x * u)%Q by ring.
      rewrite E5. lra. }
  destruct (N.eqb_spec m 1000000) as [E|E].
  - split; [lia|]. rewrite E in N0.
    setoid_replace (inject_Z (Z.of_N 100000) * pow10 (e + 1 - 5))%Q with (inject_Z (Z.of_N 1000000) * pow10 (e - 5))%Q; [exact N0|].
    replace (e + 1 - 5)%Z with (1 + (e - 5))%Z by lia. rewrite pow10_plus. change (pow10 1) with (10 # 1)%Q.
    change (inject_Z (Z.of_N 1000000)) with (1000000 # 1)%Q. change (inject_Z (Z.of_N 100000)) with (100000 # 1)%Q. ring.
  - split; [lia|exact N0].
Qed.

(** trailing zeros *)
Lemma strip0_spec r : exists z, r = repeat "0"%char z ++ strip0 r.
Proof.
  induction r as [|c r [z IH]]; simpl; [exists O; reflexivity|].
  destruct (Ascii.eqb_spec c "0"%char) as [->|]; [|exists O; reflexivity].
  exists (S z). simpl. f_equal. exact IH.
Qed.

Lemma rev_repeat {A} (x : A) n : List.rev (repeat x n) = repeat x n.
Proof.
  induction n; [reflexivity|]. simpl. rewrite IHn. clear. induction n; [reflexivity|]. simpl. f_equal. exact IHn.
Qed.

Lemma valof_zeros z : forall a, valof a (repeat "0"%char z) = a * 10 ^ N.of_nat z.
Proof.
  induction z as [|z IH]; intros a; [simpl; lia|].
  change (repeat "0"%char (S z)) with ([digit 0] ++ repeat "0"%char z).
  rewrite valof_app, valof_digit by lia. rewrite IH, Nat2N.inj_succ, N.pow_succ_r'. lia.
Qed.

Lemma fraction_spec ds : Forall isdig ds -> exists f z,
  ds = f ++ repeat "0"%char z /\ Forall isdig f /\ fraction ds = match f with [] => [] | _ => str "." ++ f end.
Proof.
  intros H. destruct (strip0_spec (List.rev ds)) as [z E].
  exists (List.rev (strip0 (List.rev ds))), z.
  assert (D : ds = List.rev (strip0 (List.rev ds)) ++ repeat "0"%char z).
  { rewrite <- (rev_involutive ds) at 1. rewrite E at 1. rewrite rev_app_distr, rev_repeat. reflexivity. }
  split; [exact D|]. split.
  - rewrite D in H. apply Forall_app in H. apply H.
  - unfold fraction. destruct (strip0 (List.rev ds)) as [|c r]; [reflexivity|].
    destruct (List.rev (c :: r)) eqn:R; [|reflexivity].
    apply (f_equal (@List.length _)) in R. rewrite rev_length in R. discriminate.
Qed.

Lemma exp_stop rest e : read_exponent rest = Some e -> forall a c, take_digits a c rest = (a, c, rest).
Proof.
  destruct rest as [|x r]; intros H a c; [reflexivity|]. cbn [read_exponent] in H.
  destruct (Ascii.eqb_spec x "e"%char) as [->|]; [reflexivity|discriminate].
Qed.

Lemma qsign_scale s m a z : (qsign s m * pow10 a == qsign s (m * 10 ^ N.of_nat z) * pow10 (a - Z.of_nat z))%Q.
Proof.
  assert (X : (inject_Z (Z.of_N m) * pow10 a == inject_Z (Z.of_N (m * 10 ^ N.of_nat z)) * pow10 (a - Z.of_nat z))%Q).
  { rewrite N2Z.inj_mul, inject_Z_mult, <- pow10_nat.
    rewrite <- Qmult_assoc, <- pow10_plus. replace (Z.of_nat z + (a - Z.of_nat z))%Z with a by lia. reflexivity. }
  unfold qsign. destruct s; [|exact X].
  setoid_replace (- inject_Z (Z.of_N m) * pow10 a)%Q with (- (inject_Z (Z.of_N m) * pow10 a))%Q by ring. rewrite X. ring.
Qed.

Lemma read_frac s i ds rest e : Forall isdig i -> i <> [] -> Forall isdig ds -> read_exponent rest = Some e ->
  exists q, read_number (sign s ++ i ++ fraction ds ++ rest) = Some q /\
    (q == qsign s (valof 0 (i ++ ds)) * pow10 (e - Z.of_nat (List.length ds)))%Q.
Proof.
  intros Hi Ni Hd He. destruct (fraction_spec ds Hd) as (f & z & D & Hf & F). rewrite F.
  assert (V : valof 0 (i ++ ds) = valof 0 (i ++ f) * 10 ^ N.of_nat z).
  { rewrite D, app_assoc, valof_app, valof_zeros. reflexivity. }
  assert (Len : List.length ds = (List.length f + z)%nat) by (rewrite D, app_length, repeat_length; reflexivity).
  destruct f as [|c f].
  - eexists; split; [apply (read_nopoint s i (valof 0 i) rest e); auto|].
    rewrite V, app_nil_r, Len. rewrite (qsign_scale s _ (e - 0) z). replace (e - 0 - Z.of_nat z)%Z with (e - Z.of_nat (List.length (@nil ascii) + z))%Z by (simpl; lia).
    reflexivity.
  - eexists; split; [rewrite <- (app_assoc (str ".")); apply (read_point s i (c :: f) (valof 0 (i ++ c :: f)) rest e); auto; eapply exp_stop; eauto|].
    rewrite V, Len. rewrite (qsign_scale s _ _ z).
    replace (e - Z.of_nat (List.length (c :: f)) - Z.of_nat z)%Z with (e - Z.of_nat (List.length (c :: f) + z))%Z by lia.
    reflexivity.
Qed.

Lemma read_exp e : read_exponent (str "e" ++ (if (e <? 0)%Z then str "-" else str "+") ++
       (if (Z.abs e <? 10)%Z then str "0" else []) ++ decimal (Z.abs_N e)) = Some e.
Proof.
  destruct (decimal_spec (Z.abs_N e)) as (Hi & Ni & Vi).
  set (z := if (Z.abs e <? 10)%Z then str "0" else []).
  assert (Hz : Forall isdig (z ++ decimal (Z.abs_N e))).
  { apply Forall_app; split; [|exact Hi]. unfold z. destruct (Z.abs e <? 10)%Z; repeat constructor. exists 0. split; [lia|reflexivity]. }
  assert (Vz : valof 0 (z ++ decimal (Z.abs_N e)) = Z.abs_N e).
  { rewrite valof_app. replace (valof 0 z) with 0 by (unfold z; destruct (Z.abs e <? 10)%Z; reflexivity). rewrite Vi. lia. }
  assert (Lz : exists k, List.length (z ++ decimal (Z.abs_N e)) = S k).
  { rewrite app_length. destruct (decimal (Z.abs_N e)) as [|c r]; [congruence|]. exists (List.length z + List.length r)%nat. simpl. lia. }
  destruct Lz as [k Lz]. set (t := z ++ decimal (Z.abs_N e)) in *.
  assert (T : take_digits 0 0 t = (Z.abs_N e, S k, [])).
  { rewrite <- (app_nil_r t). rewrite take_digits_app by exact Hz. rewrite Vz, Lz. reflexivity. }
  destruct (Z.ltb_spec e 0); simpl; match goal with |- context [take_digits 0 0 ?u] => change u with t end; rewrite T; f_equal; lia.
Qed.

Lemma int_frac_val m k : valof 0 (decimal (m / 10 ^ N.of_nat k) ++ fixed_digits k m) = m.
Proof.
  destruct (decimal_spec (m / 10 ^ N.of_nat k)) as (_ & _ & Vi). destruct (fixed_spec k m) as [_ Vf].
  rewrite valof_app, Vi, Vf, N.mul_0_l, N.add_0_l. pose proof (N.div_mod' m (10 ^ N.of_nat k)). lia.
Qed.

Theorem g_near s n d : exists q, read_number (print_g (Fin s n d)) = Some q /\ six_digits (num_value (Fin s n d)) q.
Proof.
  destruct (N.eq_dec n 0) as [->|Hn].
  - exists (qsign s 0 * pow10 0)%Q. split; [destruct s; reflexivity|]. unfold six_digits. destruct s; vm_compute; discriminate.
  - assert (P : print_g (Fin s n d) = let '(m, e) := significand n d in
      sign s ++
      (if ((-4 <=? e) && (e <? 6))%Z then
         let k := Z.to_nat (5 - e) in decimal (m / 10 ^ N.of_nat k) ++ fraction (fixed_digits k m)
       else decimal (m / 100000) ++ fraction (fixed_digits 5 m) ++ str "e" ++
         (if (e <? 0)%Z then str "-" else str "+") ++ (if (Z.abs e <? 10)%Z then str "0" else []) ++ decimal (Z.abs_N e)))
      by (destruct n; [congruence|reflexivity]).
    rewrite P. pose proof (significand_spec n d ltac:(lia)) as S. destruct (significand n d) as [m e]. destruct S as [_ S].
    assert (G : exists q, read_number (sign s ++
      (if ((-4 <=? e) && (e <? 6))%Z then
         let k := Z.to_nat (5 - e) in decimal (m / 10 ^ N.of_nat k) ++ fraction (fixed_digits k m)
       else decimal (m / 100000) ++ fraction (fixed_digits 5 m) ++ str "e" ++
         (if (e <? 0)%Z then str "-" else str "+") ++ (if (Z.abs e <? 10)%Z then str "0" else []) ++ decimal (Z.abs_N e))) = Some q
      /\ (q == qsign s m * pow10 (e - 5))%Q).
    { destruct ((-4 <=? e) && (e <? 6))%Z eqn:C.
      - apply andb_prop in C. destruct C as [C1 C2]. apply Z.leb_le in C1. apply Z.ltb_lt in C2.
        cbv zeta. set (k := Z.to_nat (5 - e)).
        destruct (decimal_spec (m / 10 ^ N.of_nat k)) as (Hi & Ni & _). destruct (fixed_spec k m) as [Hf _].
        destruct (read_frac s _ _ [] 0 Hi Ni Hf eq_refl) as (q & R & E). rewrite app_nil_r in R.
        exists q. split; [exact R|]. rewrite E, int_frac_val, fixed_length. replace (0 - Z.of_nat k)%Z with (e - 5)%Z by (unfold k; lia). reflexivity.
      - change 100000 with (10 ^ N.of_nat 5).
        destruct (decimal_spec (m / 10 ^ N.of_nat 5)) as (Hi & Ni & _). destruct (fixed_spec 5 m) as [Hf _].
        destruct (read_frac s _ _ _ e Hi Ni Hf (read_exp e)) as (q & R & E).
        exists q. split; [exact R|]. rewrite E, int_frac_val, fixed_length. reflexivity. }
    destruct G as (q & R & E). exists q. split; [exact R|].
    unfold six_digits. rewrite E. unfold num_value, qsign. destruct s.
    + rewrite Qabs_opp, <- Qabs_opp.
      setoid_replace (- (- inject_Z (Z.of_N m) * pow10 (e - 5) - - (Z.of_N n # d)))%Q
        with (inject_Z (Z.of_N m) * pow10 (e - 5) - ratio n d)%Q by (unfold ratio; ring).
      rewrite (Qabs_pos (Z.of_N n # d)) by (unfold Qle; simpl; lia). exact S.
    + rewrite (Qabs_pos (Z.of_N n # d)) by (unfold Qle; simpl; lia). exact S.
Qed.

(** what is lost: from 100000 on only whole numbers are printed *)
Theorem g_whole n d k : 100000 <= k <= 999999 -> (100000 # 1 <= ratio n d)%Q ->
  (Qabs (ratio n d - inject_Z (Z.of_N k)) < 1 # 2)%Q -> print_g (Fin false n d) = decimal k.
Proof.
  intros Hk L H. apply Qabs_Qlt_condition in H. destruct H as [H1 H2].
  assert (Hn : 0 < n). { destruct n; [|lia]. unfold ratio, Qle in L; simpl in L. lia. }
  destruct (exponent_spec n d Hn) as [A B].
  assert (E : exponent n d = 5%Z).
  { assert (X1 : (exponent n d < 6)%Z).
    { apply Z.nle_gt. intros X. apply pow10_mono in X. change (pow10 6) with (1000000 # 1)%Q in X.
      assert (Y : (inject_Z (Z.of_N k) <= 999999 # 1)%Q) by (unfold Qle, inject_Z; simpl; lia). lra. }
    assert (X2 : (5 <= exponent n d)%Z).
    { apply Z.nlt_ge. intros X. assert (X' : (exponent n d + 1 <= 5)%Z) by lia. apply pow10_mono in X'.
      change (pow10 5) with (100000 # 1)%Q in X'. lra. }
    lia. }
  pose proof (scaled_near (5 - exponent n d) n d) as S. rewrite E in S. change (5 - 5)%Z with 0%Z in S.
  change (pow10 0) with 1%Q in S. rewrite Qmult_1_r in S. apply Qabs_le_iff in S.
  assert (M : scaled 0 n d = k).
  { set (m := scaled 0 n d) in *. destruct S as [S1 S2].
    assert (Y1 : (inject_Z (Z.of_N m) < inject_Z (Z.of_N k) + 1)%Q) by lra.
    assert (Y2 : (inject_Z (Z.of_N k) < inject_Z (Z.of_N m) + 1)%Q) by lra.
    unfold Qlt, inject_Z, Qplus in Y1, Y2; simpl in Y1, Y2. lia. }
  assert (P : significand n d = (k, 5%Z)).
  { unfold significand. rewrite E. change (5 - 5)%Z with 0%Z. rewrite M.
    destruct (N.eqb_spec k 1000000); [lia|reflexivity]. }
  destruct n as [|p]; [lia|]. cbn [print_g]. rewrite P. change ((-4 <=? 5) && (5 <? 6))%Z with true. cbv iota zeta.
  change (Z.to_nat (5 - 5)) with 0%nat. cbn [fixed_digits]. change (fraction []) with (@nil ascii).
  change (10 ^ N.of_nat 0) with 1. rewrite N.div_1_r, app_nil_r. reflexivity.
Qed.
