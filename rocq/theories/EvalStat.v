(** Proofs about the statistics of the comparison with a reference. *)
From Coq Require Import Reals List Sorted Arith Lia Lra ZArith.
From Verif Require Import EarthModel EvalModel EvalSpec EvalProofs.
Import ListNotations.
Open Scope R_scope.

(** ** Extremes *)
Lemma fold_min l : forall x, In (fold_left Rmin l x) (x :: l) /\ forall y, In y (x :: l) -> fold_left Rmin l x <= y.
Proof.
  induction l as [|z l IH]; intros x; cbn [fold_left]; [split; [left; reflexivity|intros y [->|[]]; lra]|].
  destruct (IH (Rmin x z)) as [A B]. split.
  - destruct A as [A|A]; [|right; right; exact A]. rewrite <- A. unfold Rmin. destruct (Rle_dec x z); [left|right; left]; reflexivity.
  - assert (C := B (Rmin x z) (or_introl eq_refl)). assert (D := Rmin_l x z). assert (E := Rmin_r x z).
    intros y [->|[->|Y]]; [lra|lra|apply B; right; exact Y].
Qed.
Lemma fold_max l : forall x, In (fold_left Rmax l x) (x :: l) /\ forall y, In y (x :: l) -> y <= fold_left Rmax l x.
Proof.
  induction l as [|z l IH]; intros x; cbn [fold_left]; [split; [left; reflexivity|intros y [->|[]]; lra]|].
  destruct (IH (Rmax x z)) as [A B]. split.
  - destruct A as [A|A]; [|right; right; exact A]. rewrite <- A. unfold Rmax. destruct (Rle_dec x z); [right; left|left]; reflexivity.
  - assert (C := B (Rmax x z) (or_introl eq_refl)). assert (D := Rmax_l x z). assert (E := Rmax_r x z).
    intros y [->|[->|Y]]; [lra|lra|apply B; right; exact Y].
Qed.
Lemma extremes_of l lo hi : extremes lo hi l -> smallest l = lo /\ largest l = hi.
Proof.
  intros (A & B & C). destruct l as [|x l]; [destruct A|]. cbn [smallest largest]. destruct (fold_min l x) as [D E]. destruct (fold_max l x) as [F G].
  assert (E1 := E lo A). assert (G1 := G hi B). assert (D1 := C _ D). assert (F1 := C _ F). split; lra.
Qed.
Lemma extremes_exist l : l <> [] -> extremes (smallest l) (largest l) l.
Proof.
  intros N. destruct l as [|x l]; [congruence|]. cbn [smallest largest]. destruct (fold_min l x) as [D E]. destruct (fold_max l x) as [F G].
  split; [exact D|]. split; [exact F|]. intros y Y. split; [apply E, Y|apply G, Y].
Qed.

(** ** Counts *)
Lemma count_split {A} (p q r : A -> bool) l :
  (forall x, In x l -> ((if p x then 1 else 0) = (if q x then 1 else 0) + (if r x then 1 else 0))%nat) ->
  length (filter p l) = (length (filter q l) + length (filter r l))%nat.
Proof.
  induction l as [|x l IH]; intros H; cbn [filter]; [reflexivity|]. assert (X := H x (or_introl eq_refl)).
  specialize (IH (fun y Y => H y (or_intror Y))). destruct (p x), (q x), (r x); cbn [length]; lia.
Qed.
Lemma count_mono {A} (p q : A -> bool) l : (forall x, In x l -> p x = true -> q x = true) -> (length (filter p l) <= length (filter q l))%nat.
Proof.
  induction l as [|x l IH]; intros H; cbn [filter]; [lia|]. assert (X := H x (or_introl eq_refl)).
  specialize (IH (fun y Y => H y (or_intror Y))). destruct (p x); [rewrite X by reflexivity|destruct (q x)]; cbn [length]; lia.
Qed.
Lemma count_all {A} (p : A -> bool) l : (forall x, In x l -> p x = true) -> length (filter p l) = length l.
Proof. induction l as [|x l IH]; intros H; cbn [filter]; [reflexivity|]. rewrite (H x (or_introl eq_refl)). cbn [length]. rewrite IH; [reflexivity|]. intros; apply H; right; assumption. Qed.
Lemma cumsum_map (f F : nat -> nat) n : forall k s, (0 < n -> s + f k = F k)%nat -> (forall i, k <= i -> S i < k + n -> F (S i) = F i + f (S i))%nat ->
  cumsum s (map f (seq k n)) = map F (seq k n).
Proof.
  induction n as [|n IH]; intros k s H G; cbn [seq map cumsum]; [reflexivity|]. rewrite H by lia. f_equal.
  apply IH; [|intros; apply G; lia]. intros N. symmetry. apply G; lia.
Qed.

Section Bins.
Variables (l : list R) (B : nat) (lo hi : R).
Hypothesis X : extremes lo hi l.
Hypothesis B2 : (2 <= B)%nat.
Let w := width lo hi B.
Lemma B_pos : 0 < INR B. Proof. apply lt_0_INR. lia. Qed.
Lemma lo_hi : lo <= hi. Proof. destruct X as (A & _ & C). apply (C lo A). Qed.
Lemma edge_is i : edge l B i = low_edge l + INR i * w.
Proof.
  unfold edge, high_edge, low_edge, w, width. destruct (extremes_of l lo hi X) as [-> ->]. assert (P := B_pos).
  destruct (Req_EM_T lo hi) as [->|]; f_equal; f_equal; field; lra.
Qed.
Lemma w_pos : 0 < w.
Proof.
  unfold w, width. assert (P := B_pos). assert (L := lo_hi). destruct (Req_EM_T lo hi); apply Rdiv_lt_0_compat; lra.
Qed.
Lemma low_is : low_edge l = if Req_EM_T lo hi then lo - 1 / 2 else lo.
Proof. unfold low_edge. destruct (extremes_of l lo hi X) as [-> ->]. reflexivity. Qed.
Lemma edge_0 x : In x l -> edge l B 0 <= x.
Proof.
  intros I. rewrite edge_is, low_is. destruct X as (_ & _ & C). specialize (C x I). cbn [INR]. destruct (Req_EM_T lo hi); lra.
Qed.
Lemma edge_B x : In x l -> x <= edge l B B.
Proof.
  intros I. rewrite edge_is, low_is. destruct X as (_ & _ & C). specialize (C x I). unfold w, width. assert (P := B_pos).
  destruct (Req_EM_T lo hi) as [E|E].
  - replace (INR B * (1 / INR B)) with 1 by (field; lra). lra.
  - replace (INR B * ((hi - lo) / INR B)) with (hi - lo) by (field; lra). lra.
Qed.
Lemma edge_S i : edge l B (S i) = edge l B i + w.
Proof. rewrite !edge_is, S_INR. ring. Qed.
Definition less (i : nat) : nat := length (filter (fun e => if Rlt_dec e (edge l B (S i)) then true else false) l).
Definition cdf (i : nat) : nat := if Nat.eqb (S i) B then length l else less i.
Lemma cdf_step i : (S i < B)%nat -> (cdf (S i) = cdf i + length (filter (in_bin l B (S i)) l))%nat.
Proof.
  intros H. assert (W := w_pos). unfold cdf at 2. destruct (Nat.eqb_spec (S i) B); [lia|]. unfold cdf.
  destruct (Nat.eqb_spec (S (S i)) B) as [E|E].
  - rewrite <- (count_all (fun _ => true) l) at 1 by reflexivity. unfold less. apply count_split. intros x I.
    assert (U := edge_B x I). unfold in_bin. rewrite E. replace (Nat.eqb B B) with true by (symmetry; apply Nat.eqb_refl).
    destruct (Rlt_dec x (edge l B (S i))), (Rle_dec (edge l B (S i)) x); try lra.
    + reflexivity.
    + destruct (Rlt_dec x (edge l B B)); [reflexivity|]. destruct (Rle_dec x (edge l B B)); [reflexivity|lra].
  - unfold less. apply count_split. intros x I. unfold in_bin. assert (T := edge_S (S i)).
    destruct (Nat.eqb_spec (S (S i)) B); [lia|].
    destruct (Rlt_dec x (edge l B (S i))), (Rle_dec (edge l B (S i)) x), (Rlt_dec x (edge l B (S (S i)))); try lra; reflexivity.
Qed.
Lemma cdf_first : (0 + length (filter (in_bin l B 0) l) = cdf 0)%nat.
Proof.
  unfold cdf. destruct (Nat.eqb_spec 1 B); [lia|]. unfold less. cbn [Nat.add]. f_equal. apply filter_ext_in. intros x I.
  assert (U := edge_0 x I). unfold in_bin. destruct (Nat.eqb_spec 1 B); [lia|].
  destruct (Rle_dec (edge l B 0) x); [|lra]. destruct (Rlt_dec x (edge l B 1)); reflexivity.
Qed.
Lemma cumsum_is : cumsum 0 (histogram l B) = map cdf (seq 0 B).
Proof. unfold histogram. apply cumsum_map; [intros; apply cdf_first|]. intros i _ H. apply cdf_step. lia. Qed.
Lemma knots_is : knots l B = map (fun i => (INR (cdf i), edge l B (S i))) (seq 0 B).
Proof.
  unfold knots. rewrite cumsum_is, map_map. generalize (seq 0 B). induction l0 as [|i r IH]; [reflexivity|]. cbn [map combine]. rewrite IH. reflexivity.
Qed.
Lemma total_is : total l B = INR (length l).
Proof.
  unfold total. rewrite cumsum_is. destruct B as [|n] eqn:E; [lia|]. rewrite seq_S, map_app. cbn [map]. rewrite last_last. cbn [Nat.add].
  unfold cdf. destruct (Nat.eqb_spec (S n) B); [reflexivity|lia].
Qed.
Lemma less_le i : (less i <= length l)%nat.
Proof. unfold less. apply Nat.le_trans with (length (filter (fun _ : R => true) l)); [apply count_mono; reflexivity|]. rewrite count_all; [lia|reflexivity]. Qed.
End Bins.

(** ** Interpolation over numbered knots *)
Lemma interp_from_seq (x y : nat -> R) n : forall k v, x k <= v -> (0 < n)%nat -> v <= x (k + n)%nat ->
  exists j, (k <= j < k + n)%nat /\ x j <= v <= x (S j) /\ (j = k \/ x j < v) /\
    interp_from (x k) (y k) (map (fun i => (x i, y i)) (seq (S k) n)) v
    = if Req_EM_T (x (S j)) (x j) then NotANumber else Val ((y (S j) - y j) / (x (S j) - x j) * (v - x j) + y j).
Proof.
  induction n as [|n IH]; intros k v A N C; [lia|]. cbn [seq map interp_from]. destruct (Rle_dec v (x (S k))) as [L|L].
  - exists k. split; [lia|]. split; [lra|]. split; [left; reflexivity|]. reflexivity.
  - destruct n as [|n].
    + replace (k + 1)%nat with (S k) in C by lia. lra.
    + destruct (IH (S k) v ltac:(lra) ltac:(lia)) as (j & J & V & D & E); [replace (S k + S n)%nat with (k + S (S n))%nat by lia; exact C|].
      exists j. split; [lia|]. split; [exact V|]. split; [|exact E]. right. destruct D as [->|D]; [lra|exact D].
Qed.
Lemma interp_seq (x y : nat -> R) n v : (2 <= n)%nat -> v <= x (n - 1)%nat ->
  interp1d (map (fun i => (x i, y i)) (seq 0 n)) v =
    (if Rlt_dec v (x 0%nat) then Raises else interp_from (x 0%nat) (y 0%nat) (map (fun i => (x i, y i)) (seq 1 (n - 1))) v).
Proof. intros N _. destruct n as [|n]; [lia|]. cbn [seq map interp1d]. replace (S n - 1)%nat with n by lia. reflexivity. Qed.

(** ** Sigmas *)
Section Sigma.
Variables (l : list R) (B : nat) (lo hi : R).
Hypothesis X : extremes lo hi l.
Hypothesis B2 : (2 <= B)%nat.
Let w := width lo hi B.
Lemma length_pos : 0 < INR (length l).
Proof. destruct X as (A & _). destruct l as [|x r]; [destruct A|]. apply lt_0_INR. cbn. lia. Qed.
Lemma cdf_last : cdf l B (B - 1) = length l.
Proof. unfold cdf. destruct (Nat.eqb_spec (S (B - 1)) B); [reflexivity|lia]. Qed.
Lemma cdf_less i : (S i < B)%nat -> cdf l B i = less l B i.
Proof. intros. unfold cdf. destruct (Nat.eqb_spec (S i) B); [lia|reflexivity]. Qed.
Lemma cdf_below i : (i < B)%nat -> INR (cdf l B i) <= not_above (edge l B (S i)) l.
Proof.
  intros H. apply le_INR. unfold cdf. destruct (Nat.eqb_spec (S i) B) as [E|E].
  - rewrite <- (count_all (fun e => if Rle_dec e (edge l B (S i)) then true else false) l); [lia|].
    intros x I. rewrite E. assert (U := edge_B l B lo hi X B2 x I). destruct (Rle_dec x (edge l B B)); [reflexivity|lra].
  - apply count_mono. intros x I. destruct (Rlt_dec x (edge l B (S i))); [|discriminate]. destruct (Rle_dec x (edge l B (S i))); [reflexivity|lra].
Qed.
Lemma not_above_mono a b : a <= b -> not_above a l <= not_above b l.
Proof. intros. apply le_INR, count_mono. intros x _. destruct (Rle_dec x a), (Rle_dec x b); try reflexivity; try discriminate; lra. Qed.
Lemma below_mono a b : a <= b -> below a l <= below b l.
Proof. intros. apply le_INR, count_mono. intros x _. destruct (Rlt_dec x a), (Rlt_dec x b); try reflexivity; try discriminate; lra. Qed.
(** the value at a share p of the errors *)
Lemma quantile_at p : 0 <= p <= 1 -> INR (cdf l B 0) < p * INR (length l) -> exists j, (S j < B)%nat /\
  INR (cdf l B j) < p * INR (length l) <= INR (cdf l B (S j)) /\
  interp1d (knots l B) (p * total l B) = Val (edge l B (S j) + w * ((p * INR (length l) - INR (cdf l B j)) / (INR (cdf l B (S j)) - INR (cdf l B j)))).
Proof.
  intros P F. rewrite (total_is l B lo hi X B2), (knots_is l B lo hi X B2). set (v := p * INR (length l)) in *. assert (N := length_pos).
  assert (V : v <= INR (cdf l B (B - 1))) by (rewrite cdf_last; unfold v; nra).
  rewrite (interp_seq (fun i => INR (cdf l B i)) (fun i => edge l B (S i)) B v B2 V).
  destruct (Rlt_dec v (INR (cdf l B 0))); [lra|].
  destruct (interp_from_seq (fun i => INR (cdf l B i)) (fun i => edge l B (S i)) (B - 1) 0 v ltac:(lra) ltac:(lia) V) as (j & J & [V1 V2] & D & E).
  rewrite E. clear E. assert (V3 : INR (cdf l B j) < v) by (destruct D as [->|D]; lra).
  destruct (Req_EM_T (INR (cdf l B (S j))) (INR (cdf l B j))); [lra|].
  assert (Y := edge_S l B lo hi X B2 (S j)). fold w in Y.
  exists j. split; [lia|]. split; [lra|]. f_equal. rewrite Y. field. lra.
Qed.
Lemma quantile p : 0 <= p <= 1 -> INR (cdf l B 0) < p * INR (length l) ->
  exists s, interp1d (knots l B) (p * total l B) = Val s /\
    p * INR (length l) <= not_above (s + w) l /\ below (s - w) l < p * INR (length l).
Proof.
  intros P F. destruct (quantile_at p P F) as (j & J & [V3 V2] & E). rewrite E. clear E. eexists. split; [reflexivity|].
  set (v := p * INR (length l)) in *. assert (W := w_pos l B lo hi X B2). fold w in W.
  assert (Y := edge_S l B lo hi X B2 (S j)). fold w in Y.
  set (k := (v - INR (cdf l B j)) / (INR (cdf l B (S j)) - INR (cdf l B j))).
  assert (K : 0 <= k <= 1).
  { unfold k. split; [apply Rmult_le_pos; [lra|left; apply Rinv_0_lt_compat; lra]|]. apply Rmult_le_reg_r with (INR (cdf l B (S j)) - INR (cdf l B j)); [lra|].
    replace (_ / _ * _) with (v - INR (cdf l B j)) by (field; lra). lra. }
  split.
  - apply Rle_trans with (INR (cdf l B (S j))); [exact V2|]. apply Rle_trans with (not_above (edge l B (S (S j))) l); [apply cdf_below; lia|].
    apply not_above_mono. nra.
  - apply Rle_lt_trans with (INR (cdf l B j)); [|exact V3]. rewrite cdf_less by lia. apply below_mono. nra.
Qed.
Lemma first_bin : INR (cdf l B 0) = if Req_EM_T lo hi then below (lo - 1 / 2 + w) l else below (lo + w) l.
Proof.
  rewrite cdf_less by lia. unfold less, below. f_equal. f_equal.
  rewrite (edge_is l B lo hi X B2 1), (low_is l lo hi X). fold w. cbn [INR]. rewrite Rmult_1_l. destruct (Req_EM_T lo hi); reflexivity.
Qed.
Lemma count_none {A} (p : A -> bool) r : (forall x, In x r -> p x = false) -> length (filter p r) = 0%nat.
Proof. induction r as [|x r IH]; intros H; cbn [filter]; [reflexivity|]. rewrite (H x (or_introl eq_refl)). apply IH. intros; apply H; right; assumption. Qed.
Lemma first_bin_equal : lo = hi -> INR (cdf l B 0) = 0.
Proof.
  intros E. rewrite first_bin. destruct (Req_EM_T lo hi); [|congruence]. unfold below. replace 0 with (INR 0) by reflexivity. f_equal.
  assert (P := B_pos B B2). assert (Q : 2 <= INR B) by (change 2 with (INR 2); apply le_INR; lia).
  assert (W : w <= 1 / 2).
  { unfold w, width. destruct (Req_EM_T lo hi); [|congruence]. unfold Rdiv. rewrite !Rmult_1_l. apply Rinv_le_contravar; lra. }
  apply count_none. intros x I. destruct X as (_ & _ & C). specialize (C x I). destruct (Rlt_dec x (lo - 1 / 2 + w)); [lra|reflexivity].
Qed.
Lemma crowded_is : crowded lo hi B l <-> 6826 / 10000 * INR (length l) < INR (cdf l B 0).
Proof.
  assert (N := length_pos). unfold crowded. fold w. split.
  - intros [L C]. rewrite first_bin. destruct (Req_EM_T lo hi); [lra|exact C].
  - intros C. destruct (Req_EM_T lo hi) as [E|E]; [rewrite (first_bin_equal E) in C; lra|]. assert (L := lo_hi l lo hi X).
    split; [lra|]. rewrite first_bin in C. destruct (Req_EM_T lo hi); [congruence|exact C].
Qed.
Lemma sigmas_crowded : crowded lo hi B l -> sigmas l B = (Val 0, Val 0).
Proof.
  intros C. apply crowded_is in C. assert (N := length_pos). unfold sigmas. rewrite (total_is l B lo hi X B2), (knots_is l B lo hi X B2).
  rewrite (interp_seq (fun i => INR (cdf l B i)) (fun i => edge l B (S i)) B (6826 / 10000 * INR (length l)) B2) by (rewrite cdf_last; lra).
  destruct (Rlt_dec _ _); [reflexivity|lra].
Qed.
Lemma sigmas_fair : ~ crowded lo hi B l -> exists a s, sigmas l B = (a, Val s) /\
  9544 / 10000 * INR (length l) <= not_above (s + w) l /\ below (s - w) l < 9544 / 10000 * INR (length l) /\
  interp1d (knots l B) (9544 / 10000 * total l B) = Val s.
Proof.
  intros C. rewrite crowded_is in C. assert (N := length_pos).
  destruct (quantile (9544 / 10000) ltac:(lra) ltac:(lra)) as (s & E & R). unfold sigmas. rewrite E.
  assert (A : interp1d (knots l B) (6826 / 10000 * total l B) <> Raises).
  { rewrite (total_is l B lo hi X B2), (knots_is l B lo hi X B2).
    assert (V : 6826 / 10000 * INR (length l) <= INR (cdf l B (B - 1))) by (rewrite cdf_last; lra).
    rewrite (interp_seq (fun i => INR (cdf l B i)) (fun i => edge l B (S i)) B _ B2 V). destruct (Rlt_dec _ _); [lra|].
    destruct (interp_from_seq (fun i => INR (cdf l B i)) (fun i => edge l B (S i)) (B - 1) 0 (6826 / 10000 * INR (length l)) ltac:(lra) ltac:(lia) V) as (j & _ & _ & _ & ->).
    destruct (Req_EM_T _ _); discriminate. }
  destruct (interp1d (knots l B) (6826 / 10000 * total l B)); [congruence| |]; eexists; exists s; (split; [reflexivity|destruct R; repeat split; assumption]).
Qed.
(** first sigma, when it is a number *)
Lemma sigmas_first a b : sigmas l B = (Val a, b) -> ~ crowded lo hi B l -> INR (cdf l B 0) <> 6826 / 10000 * INR (length l) ->
  6826 / 10000 * INR (length l) <= not_above (a + w) l /\ below (a - w) l < 6826 / 10000 * INR (length l).
Proof.
  intros E C D. rewrite crowded_is in C. assert (N := length_pos).
  destruct (quantile (6826 / 10000) ltac:(lra) ltac:(lra)) as (s & F & R). unfold sigmas in E. rewrite F in E.
  destruct (quantile (9544 / 10000) ltac:(lra) ltac:(lra)) as (s2 & F2 & _). rewrite F2 in E. injection E as <- _. exact R.
Qed.
End Sigma.

Lemma abs_nonneg l : (forall x, In x l -> 0 <= x) -> map Rabs l = l.
Proof. induction l as [|x l IH]; intros H; cbn [map]; [reflexivity|]. rewrite Rabs_pos_eq by (apply H; left; reflexivity). rewrite IH; [reflexivity|]. intros; apply H; right; assumption. Qed.
Lemma verdict_parts e2d e3d B lim2 lim3 : verdict e2d e3d B lim2 lim3 = 0%nat <->
  exceeds (snd (sigmas (map Rabs e3d) B)) lim3 = false /\ exceeds (snd (sigmas (map Rabs e2d) B)) lim2 = false.
Proof.
  unfold verdict. destruct (exceeds (snd (sigmas (map Rabs e3d) B)) lim3), (exceeds (snd (sigmas (map Rabs e2d) B)) lim2); split; intros H; try discriminate; auto; destruct H; discriminate.
Qed.
(** the check of one list of errors *)
Lemma exceeds_share l B lo hi lim : extremes lo hi l -> (2 <= B)%nat -> 0 <= lim -> exceeds (snd (sigmas l B)) lim = false ->
  crowded lo hi B l \/ 9544 / 10000 * INR (length l) <= not_above (lim + width lo hi B) l.
Proof.
  intros X B2 L E. destruct (Classical_Prop.classic (crowded lo hi B l)) as [C|C]; [left; exact C|right].
  destruct (sigmas_fair l B lo hi X B2 C) as (a & s & F & R & _). rewrite F in E. cbn [snd exceeds] in E.
  destruct (Rlt_dec lim s); [discriminate|]. eapply Rle_trans; [exact R|]. apply not_above_mono. lra.
Qed.
Lemma exceeds_reject l B lo hi lim : extremes lo hi l -> (2 <= B)%nat -> exceeds (snd (sigmas l B)) lim = true ->
  0 <= lim -> below (lim - width lo hi B) l < 9544 / 10000 * INR (length l).
Proof.
  intros X B2 E L. destruct (Classical_Prop.classic (crowded lo hi B l)) as [C|C].
  - rewrite (sigmas_crowded l B lo hi X B2 C) in E. cbn [snd exceeds] in E. destruct (Rlt_dec lim 0); [lra|discriminate].
  - destruct (sigmas_fair l B lo hi X B2 C) as (a & s & F & _ & R & _). rewrite F in E. cbn [snd exceeds] in E.
    destruct (Rlt_dec lim s); [|discriminate]. eapply Rle_lt_trans; [|exact R]. apply below_mono. lra.
Qed.

(** ** Quadratic mean *)
Lemma squares_sum l : fold_right Rplus 0 (map (fun x => x ^ 2) l) = squares l.
Proof. induction l as [|x l IH]; cbn [map fold_right squares]; [reflexivity|]. rewrite IH. ring. Qed.
Lemma squares_nonneg l : 0 <= squares l.
Proof. induction l as [|x l IH]; cbn [squares]; nra. Qed.
Lemma squares_bounds lo hi l : 0 <= lo -> (forall x, In x l -> lo <= Rabs x <= hi) -> INR (length l) * (lo * lo) <= squares l <= INR (length l) * (hi * hi).
Proof.
  intros L. induction l as [|x l IH]; intros H; cbn [squares length]; [cbn; lra|]. rewrite S_INR.
  assert (A := H x (or_introl eq_refl)). specialize (IH (fun y Y => H y (or_intror Y))).
  assert (Q : x * x = Rabs x * Rabs x) by (rewrite <- Rabs_mult, Rabs_pos_eq; [reflexivity|nra]). rewrite Q. nra.
Qed.
Lemma rms_is l : l <> [] -> 0 <= rms l /\ rms l * rms l * INR (length l) = squares l /\
  forall lo hi, extremes lo hi (map Rabs l) -> lo <= rms l <= hi.
Proof.
  intros N. assert (P : 0 < INR (length l)) by (destruct l; [congruence|apply lt_0_INR; cbn; lia]).
  assert (Q := squares_nonneg l). assert (D : 0 <= squares l / INR (length l)) by (apply Rmult_le_pos; [exact Q|left; apply Rinv_0_lt_compat, P]).
  unfold rms. rewrite squares_sum. split; [apply sqrt_pos|]. rewrite sqrt_sqrt by exact D. split; [field; lra|].
  intros lo hi (A & B & C). assert (L : 0 <= lo) by (apply in_map_iff in A as (x & <- & _); apply Rabs_pos).
  assert (H := proj2 (C lo A)).
  destruct (squares_bounds lo hi l L) as [S1 S2]; [intros x I; apply C, in_map, I|].
  split.
  - rewrite <- (sqrt_square lo L). apply sqrt_le_1; [nra|exact D|]. apply Rmult_le_reg_r with (INR (length l)); [exact P|]. replace (squares l / INR (length l) * INR (length l)) with (squares l) by (field; lra). lra.
  - rewrite <- (sqrt_square hi) by lra. apply sqrt_le_1; [exact D|nra|]. apply Rmult_le_reg_r with (INR (length l)); [exact P|]. replace (squares l / INR (length l) * INR (length l)) with (squares l) by (field; lra). lra.
Qed.
