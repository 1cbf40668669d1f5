(** Proofs about the generator of wheel speeds. *)
From Coq Require Import QArith List ZArith Bool Reals Qreals Lia Lra Arith.
From Verif Require Import ReaderModel StreamModel RealMath ConvertModel FusionBase GenModel GenSpec.
Import QArith ListNotations.

Lemma take_denotes : forall w q, denotes w q -> take false w = Some (q, None).
Proof. intros [z | z p r | p |] q H; simpl in *; try (subst; reflexivity). contradiction. Qed.

Lemma same_length {A B} (R : A -> B -> Prop) : forall l m, Forall2 R l m -> length l = length m.
Proof. intros l m F. induction F; simpl; congruence. Qed.
Lemma last_cons {A} : forall (l : list A) x d, last (x :: l) d = last l x.
Proof. induction l as [| y l IH]; intros x d; [reflexivity |]. change (last (y :: l) d = last (y :: l) x). rewrite !IH. reflexivity. Qed.

Lemma extract_stop : forall slots ws, StreamModel.extract slots false ws = (map snd slots, false, ws).
Proof. induction slots as [| [b v] r IH]; intros ws; [reflexivity |]. simpl. rewrite IH. reflexivity. Qed.

Lemma extract_none : forall slots, slots <> [] -> StreamModel.extract slots true [] = (map snd slots, false, []).
Proof. intros [| [b v] r] H; [contradiction |]. simpl. rewrite extract_stop. reflexivity. Qed.

Lemma extract_numbers : forall ws qs vs rest, Forall2 denotes ws qs -> length vs = length ws ->
  StreamModel.extract (combine (repeat false (length ws)) vs) true (ws ++ rest) = (map Known qs, true, rest).
Proof.
induction ws as [| w ws IH]; intros qs vs rest F L; inversion F; subst; [reflexivity |].
destruct vs as [| v vs]; [discriminate |]. cbn [repeat length combine app StreamModel.extract].
rewrite (take_denotes w y) by assumption. rewrite (IH l' vs rest) by (simpl in L; auto). reflexivity.
Qed.

(** what is in nav after a line *)
Definition rec (r : nav_row) : list (value Q) := Known (inject_Z (nr_week r)) :: map Known (numbers r).

Lemma numbers_length : forall r, length (numbers r) = 10%nat.
Proof. intros r. unfold numbers. destruct (nr_place r) as [[a b] c], (nr_v r) as [[d e] f], (nr_a r) as [[g h] i]. reflexivity. Qed.

Lemma rec_length : forall r, length (rec r) = 11%nat.
Proof. intros r. unfold rec. simpl. now rewrite map_length, numbers_length. Qed.

Lemma extract_row : forall r ws prev rest, eleven r ws -> length prev = 11%nat ->
  StreamModel.extract (combine gen_types prev) true (ws ++ rest) = (rec r, true, rest).
Proof.
intros r ws prev rest [l [-> F]] L. destruct prev as [| v prev]; [discriminate |].
assert (E : length l = 10%nat) by (rewrite <- (numbers_length r); exact (same_length denotes _ _ F)).
unfold gen_types. cbn [combine app StreamModel.extract take].
rewrite <- E, (extract_numbers l (numbers r) prev rest F) by (simpl in L; lia). reflexivity.
Qed.

Lemma snd_types : forall prev : list (value Q), length prev = 11%nat -> map snd (combine gen_types prev) = prev.
Proof. intros prev L. do 12 (destruct prev as [| ? prev]; try discriminate L). reflexivity. Qed.

Lemma read_blank : forall rows wss prev fuel, Forall2 eleven rows wss -> length prev = 11%nat -> (length rows < fuel)%nat ->
  gen_read fuel true prev true (concat wss) = Ok (map rec rows ++ [last (map rec rows) prev]).
Proof.
induction rows as [| r rows IH]; intros wss prev fuel F L H; inversion F; subst; (destruct fuel as [| k]; [simpl in H; lia |]).
- cbn [concat gen_read]. rewrite extract_none by (destruct prev; [discriminate | unfold gen_types; discriminate]).
  rewrite snd_types by assumption. reflexivity.
- cbn [concat gen_read]. rewrite (extract_row r) by assumption.
  replace (match concat l' with [] => if true then negb true else true | _ :: _ => false end) with false by (destruct (concat l'); reflexivity).
  rewrite (IH l' (rec r) k) by (first [assumption | apply rec_length | simpl in H; lia]).
  cbn [map app]. rewrite last_cons. reflexivity.
Qed.

Lemma read_end : forall rows wss prev fuel, Forall2 eleven rows wss -> length prev = 11%nat -> (length rows <= fuel)%nat -> rows <> [] ->
  gen_read fuel false prev true (concat wss) = Ok (map rec rows).
Proof.
induction rows as [| r rows IH]; intros wss prev fuel F L H N; [contradiction |]. inversion F; subst.
destruct fuel as [| k]; [simpl in H; lia |]. cbn [concat gen_read]. rewrite (extract_row r) by assumption.
destruct rows as [| r2 rows].
- inversion H4; subst. reflexivity.
- assert (concat l' <> []) as C.
  { inversion H4; subst. destruct H3 as [l [-> _]]. discriminate. }
  replace (match concat l' with [] => if true then negb false else true | _ :: _ => false end) with false by (destruct (concat l'); [contradiction | reflexivity]).
  rewrite (IH l' (rec r) k) by (first [assumption | apply rec_length | discriminate | simpl in *; lia]). reflexivity.
Qed.

(** the line for a result *)
Definition line_of (r : nav_row) : wheel_line := gen_line (nr_time r) (qvec (nr_v r)) (qvec (nr_a r)).
Lemma of_rec : forall r, gen_of (rec r) = Some (line_of r).
Proof.
intros r. unfold gen_of, rec, numbers, line_of. destruct (nr_place r) as [[a b] c], (nr_v r) as [[d e] f], (nr_a r) as [[g h] i]. reflexivity.
Qed.

Lemma write_rows : forall rows cnt, exists l, gen_write cnt (map rec rows) = Some l /\
  forall c k, (c < 10)%nat -> ((cnt + c) mod 10 = 0)%nat -> nth_error l k = option_map line_of (nth_error rows (c + 10 * k)).
Proof.
induction rows as [| r rows IH]; intros cnt.
- exists []. split; [reflexivity |]. intros c k _ _. destruct k; destruct (c + _)%nat; reflexivity.
- destruct (IH (S cnt)) as [l [E H]]. cbn [map gen_write]. rewrite of_rec, E. eexists; split; [reflexivity |].
  intros c k Hc Hm. destruct (Nat.eqb (cnt mod 10) 0) eqn:Z.
  + apply Nat.eqb_eq in Z.
    assert (c = 0)%nat as -> by (pose proof (Nat.add_mod cnt c 10 ltac:(lia)) as A; rewrite Z, Hm in A; rewrite (Nat.mod_small c 10) in A by lia; change (0 + c)%nat with c in A; rewrite (Nat.mod_small c 10) in A by lia; lia).
    destruct k as [| k]; [reflexivity |]. cbn [nth_error].
    replace (0 + 10 * S k)%nat with (S (9 + 10 * k)) by lia. cbn [nth_error]. apply H; [lia |].
    replace (S cnt + 9)%nat with (cnt + 1 * 10)%nat by lia. now rewrite Nat.mod_add by lia.
  + apply Nat.eqb_neq in Z. destruct c as [| c]; [exfalso; apply Z; now rewrite Nat.add_0_r in Hm |].
    replace (S c + 10 * k)%nat with (S (c + 10 * k)) by lia. cbn [nth_error]. apply H; [lia |].
    now replace (S cnt + c)%nat with (cnt + S c)%nat by lia.
Qed.

Lemma gen_init_length : length gen_init = 11%nat. Proof. reflexivity. Qed.

Lemma generate_end : forall rows wss fuel, Forall2 eleven rows wss -> rows <> [] -> (length rows <= fuel)%nat ->
  exists l, generate fuel false (concat wss) = Ok l /\ forall k, nth_error l k = option_map line_of (nth_error rows (10 * k)).
Proof.
intros rows wss fuel F N L. destruct (write_rows rows 0) as [l [E H]]. exists l. split.
- unfold generate. rewrite (read_end rows) by (auto using gen_init_length). now rewrite E.
- intros k. apply (H 0%nat k); [lia | reflexivity].
Qed.

Lemma generate_blank : forall rows r wss fuel, Forall2 eleven (rows ++ [r]) wss -> (S (length rows) < fuel)%nat ->
  exists l, generate fuel true (concat wss) = Ok l /\ forall k, nth_error l k = option_map line_of (nth_error (rows ++ [r; r]) (10 * k)).
Proof.
intros rows r wss fuel F L. destruct (write_rows (rows ++ [r; r]) 0) as [l [E H]]. exists l. split.
- unfold generate. rewrite (read_blank (rows ++ [r])) by (auto using gen_init_length; rewrite app_length; simpl; lia).
  replace (map rec (rows ++ [r]) ++ [last (map rec (rows ++ [r])) gen_init]) with (map rec (rows ++ [r; r])); [now rewrite E |].
  rewrite map_app, (map_app rec rows [r]). cbn [map]. rewrite last_last. rewrite <- app_assoc. reflexivity.
- intros k. apply (H 0%nat k); [lia | reflexivity].
Qed.

(** words of result lines *)
Definition nice (w : word) : Prop := (exists z, w = Whole z) \/ exists d, w = word_of d.
Lemma nice_nineteen : forall r, Forall nice (nineteen r).
Proof.
intros r. unfold nineteen, three. destruct (fr_place r) as [[a b] c], (fr_v r) as [[d e] f], (fr_a r) as [[g h] i],
  (fr_gb r) as [[j k] l], (fr_ab r) as [[m n] o]. cbn [app].
repeat (apply Forall_cons; [first [left; eexists; reflexivity | right; eexists; reflexivity] |]). apply Forall_nil.
Qed.

(** a double takes a whole word *)
Lemma extract_doubles : forall vs ws, Forall nice ws -> Forall (fun v => v <> Indet) vs ->
  exists d g r, StreamModel.extract (combine (repeat false (length vs)) vs) true ws = (d, g, r) /\ length d = length vs /\ Forall (fun v => v <> Indet) d /\
  ((g = true /\ Forall nice r /\ (length r <= length ws)%nat) \/ (g = false /\ r = [])).
Proof.
induction vs as [| v vs IH]; intros ws N K; [exists [], true, ws; repeat split; auto |]. cbn [repeat length combine StreamModel.extract].
inversion K; subst. destruct ws as [| w ws].
- rewrite extract_stop. exists (v :: vs), false, []. replace (map snd (combine (repeat false (length vs)) vs)) with vs.
  + repeat split; auto.
  + clear. induction vs as [| x vs IH]; [reflexivity |]. cbn [repeat length combine map]. now rewrite <- IH.
- inversion N; subst. destruct (IH ws) as [d [g [r [E [L [D T]]]]]]; auto.
  assert (exists q, take false w = Some (q, None)) as [q Hq] by (destruct H3 as [[z ->] | [x ->]]; eexists; reflexivity).
  rewrite Hq, E. exists (Known q :: d), g, r. repeat split; [simpl; lia | constructor; [discriminate | assumption] |].
  destruct T as [[G [R S1]] | T]; [left; repeat split; auto; simpl; lia | right; assumption].
Qed.
Lemma extract_nice : forall vs ws, Forall nice ws -> Forall (fun v => v <> Indet) vs -> length vs = 11%nat ->
  exists d g r, StreamModel.extract (combine gen_types vs) true ws = (d, g, r) /\ length d = 11%nat /\ Forall (fun v => v <> Indet) d /\
  ((g = true /\ Forall nice r /\ (length r < length ws)%nat) \/ (g = false /\ r = [])).
Proof.
intros vs ws N K L. destruct vs as [| v vs]; [discriminate |]. inversion K; subst. assert (length vs = 10%nat) as L' by (simpl in L; lia).
destruct ws as [| w ws].
- rewrite extract_none by discriminate. rewrite snd_types by assumption. exists (v :: vs), false, []. auto 10.
- unfold gen_types. cbn [combine StreamModel.extract]. rewrite <- L'. inversion N; subst. destruct H3 as [[z ->] | [x ->]]; cbn [take word_of].
  + destruct (extract_doubles vs ws H4 H2) as [d [g [r [E [Ld [D T]]]]]]. rewrite E. exists (Known (inject_Z z) :: d), g, r.
    repeat split; [simpl; lia | constructor; [discriminate | assumption] |].
    destruct T as [[G [R S1]] | T]; [left; repeat split; auto; simpl; lia | right; assumption].
  + destruct vs as [| v2 vs]; [discriminate |]. cbn [repeat length combine StreamModel.extract take]. inversion H2; subst.
    destruct (extract_doubles vs ws H4 H5) as [d [g [r [E [Ld [D T]]]]]]. rewrite E.
    exists (Known (inject_Z (d_int x)) :: Known (d_frac x) :: d), g, r.
    repeat split; [simpl in *; lia | repeat (constructor; [discriminate |]); assumption |].
    destruct T as [[G [R S1]] | T]; [left; repeat split; auto; simpl; lia | right; assumption].
Qed.

(** contents that were all written *)
Definition written (d : list (value Q)) : Prop := length d = 11%nat /\ Forall (fun v => v <> Indet) d.
Lemma read_nice : forall fuel b vs ws, Forall nice ws -> written vs -> (length ws < fuel)%nat ->
  exists ds, gen_read fuel b vs true ws = Ok ds /\ Forall written ds.
Proof.
induction fuel as [| k IH]; intros b vs ws N [L K] H; [lia |]. cbn [gen_read].
destruct (extract_nice vs ws N K L) as [d [g [r [E [Ld [D T]]]]]]. rewrite E.
destruct T as [[-> [R S1]] | [-> ->]].
- destruct r as [| w r].
  + destruct b; cbn [negb].
    * destruct (IH true d [] R) as [ds [E2 F]]; [split; assumption | simpl in *; lia |]. rewrite E2.
      exists (d :: ds). split; [reflexivity |]. constructor; [split; assumption | assumption].
    * exists [d]. split; [reflexivity |]. constructor; [split; assumption | constructor].
  + destruct (IH b d (w :: r) R) as [ds [E2 F]]; [split; assumption | lia |]. rewrite E2.
    exists (d :: ds). split; [reflexivity |]. constructor; [split; assumption | assumption].
- exists [d]. split; [reflexivity |]. constructor; [split; assumption | constructor].
Qed.
Lemma of_written : forall d, written d -> exists w, gen_of d = Some w.
Proof.
intros d [L K]. do 12 (destruct d as [| ? d]; try discriminate L). repeat match goal with H : Forall _ (_ :: _) |- _ => inversion H; clear H; subst end.
repeat match goal with v : value Q |- _ => destruct v; [| congruence] end. eexists; reflexivity.
Qed.
Lemma write_written : forall ds cnt, Forall written ds -> exists l, gen_write cnt ds = Some l.
Proof.
induction ds as [| d ds IH]; intros cnt F; [eexists; reflexivity |]. inversion F; subst. cbn [gen_write].
destruct (of_written d H1) as [w ->], (IH (S cnt) H2) as [l ->]. eexists; reflexivity.
Qed.

(** the number of a word *)
Definition num (w : word) : Q := match w with Whole z => inject_Z z | Part _ q _ => q | Frac q => q | Junk => 0 end.
Lemma nice_num : forall l, Forall nice l -> Forall2 denotes l (map num l).
Proof. induction l as [| w l IH]; intros F; inversion F; subst; constructor; auto. destruct H1 as [[z ->] | [x ->]]; reflexivity. Qed.

(** a turn that begins in front of a number with decimals *)
Lemma turn_part : forall x l rest prev k b, length l = 9%nat -> Forall nice l -> length prev = 11%nat -> rest <> [] ->
  gen_read (S k) b prev true (word_of x :: l ++ rest) =
  let d := Known (inject_Z (d_int x)) :: Known (d_frac x) :: map Known (map num l) in
  match gen_read k b d true rest with Ok t => Ok (d :: t) | e => e end.
Proof.
intros x l rest prev k b L N P R. destruct prev as [| v prev]; [discriminate |]. destruct prev as [| v2 prev]; [discriminate |].
assert (StreamModel.extract (combine gen_types (v :: v2 :: prev)) true (word_of x :: l ++ rest) =
  (Known (inject_Z (d_int x)) :: Known (d_frac x) :: map Known (map num l), true, rest)) as E.
{ change (combine gen_types (v :: v2 :: prev)) with ((true, v) :: (false, v2) :: combine (repeat false 9) prev).
  pose proof (extract_numbers l (map num l) prev rest (nice_num l N)) as E. rewrite L in E. specialize (E ltac:(simpl in P; lia)).
  set (c := combine (repeat false 9) prev) in *. clearbody c. cbn [StreamModel.extract take word_of]. rewrite E. reflexivity. }
cbn [gen_read]. rewrite E. destruct rest; [contradiction |]. reflexivity.
Qed.

Lemma skip_skip {A} : forall m n (l : list A), skipn m (skipn n l) = skipn (n + m) l.
Proof. intros m n. induction n as [| n IH]; intros l; [reflexivity |]. destruct l as [| x l]; [now rewrite !skipn_nil |]. apply IH. Qed.
Lemma turns : forall j k b prev ws, Forall nice ws -> length prev = 11%nat -> (10 * j < length ws)%nat ->
  (forall i, (i < j)%nat -> exists x, nth_error ws (10 * i) = Some (word_of x)) ->
  exists ds, length ds = j /\ Forall written ds /\
  (forall i x, (i < j)%nat -> nth_error ws (10 * i) = Some (word_of x) -> exists d, nth_error ds i = Some d /\ nth 1 d Indet = Known (d_frac x)) /\
  gen_read (j + k) b prev true ws =
    match gen_read k b (last ds prev) true (skipn (10 * j) ws) with Ok t => Ok (ds ++ t) | e => e end.
Proof.
induction j as [| j IH]; intros k b prev ws N P L H.
- exists []. repeat split; [constructor | intros; lia |]. simpl. destruct (gen_read k b prev true ws); reflexivity.
- destruct (H 0%nat ltac:(lia)) as [x Hx]. destruct ws as [| w ws]; [simpl in L; lia |]. injection Hx as ->.
  pose proof (firstn_skipn 9 ws) as E. set (l := firstn 9 ws) in *. set (rest := skipn 9 ws) in *.
  assert (length l = 9)%nat as Ll by (unfold l; rewrite firstn_length; simpl in L; lia).
  assert (length rest = length ws - 9)%nat as Lr by (unfold rest; apply skipn_length).
  assert (skipn (10 * j) rest = skipn (9 + 10 * j) ws) as Sk by (unfold rest; rewrite skip_skip; f_equal; lia).
  clearbody l rest. apply Forall_inv_tail in N. pose proof N as N'. rewrite <- E in N'. apply Forall_app in N'. destruct N' as [Nl Nr].
  set (d := Known (inject_Z (d_int x)) :: Known (d_frac x) :: map Known (map num l)).
  assert (length d = 11)%nat as Ld by (unfold d; simpl; rewrite !map_length, Ll; reflexivity).
  destruct (IH k b d rest Nr Ld) as [ds [Lds [W [T G]]]].
  + simpl in L. lia.
  + intros i Hi. destruct (H (S i) ltac:(lia)) as [y Hy]. exists y. rewrite <- Hy.
    replace (10 * S i)%nat with (S (9 + 10 * i)) by lia. cbn [nth_error]. rewrite <- E.
    rewrite nth_error_app2 by lia. f_equal. lia.
  + exists (d :: ds). repeat split; [simpl; lia | constructor; [| assumption] | |].
    * split; [assumption |]. unfold d. do 2 (constructor; [discriminate |]). apply Forall_forall. intros v Hv.
      apply in_map_iff in Hv. destruct Hv as [q [<- _]]. discriminate.
    * intros i y Hi Hy. destruct i as [| i].
      -- exists d. split; [reflexivity |]. injection Hy as Hz Hq Hf. unfold d. cbn [nth]. congruence.
      -- destruct (T i y ltac:(lia)) as [d2 [D1 D2]].
         ++ rewrite <- Hy. replace (10 * S i)%nat with (S (9 + 10 * i)) by lia. cbn [nth_error]. rewrite <- E.
            rewrite nth_error_app2 by lia. f_equal. lia.
         ++ exists d2. split; assumption.
    * change (S j + k)%nat with (S (j + k)). rewrite <- E at 1. rewrite turn_part; auto.
      -- cbv zeta. fold d. rewrite G. replace (10 * S j)%nat with (S (9 + 10 * j)) by lia. cbn [skipn].
         rewrite <- Sk, last_cons. destruct (gen_read k b (last ds d) true (skipn (10 * j) rest)); reflexivity.
      -- intros ->. simpl in Lr, L. lia.
Qed.

(** the first turn *)
Definition first_row (r : full_row) : nav_row :=
  let g t := let '(a, b, c) := t in (d_all a, d_all b, d_all c) in
  NavRow (fr_week r) (d_all (fr_time r)) (g (fr_place r)) (g (fr_v r)) (g (fr_a r)).
Lemma nineteen_split : forall r, nineteen r = firstn 11 (nineteen r) ++ skipn 11 (nineteen r).
Proof. intros r. symmetry. apply firstn_skipn. Qed.
Lemma first_eleven : forall r, eleven (first_row r) (firstn 11 (nineteen r)).
Proof.
intros [w t [[a b] c] [[d e] f] [[g h] i] gb ab p q]. eexists. split; [reflexivity |]. repeat constructor.
Qed.

Lemma file_words : forall r0 r1 r2 r3 r4 r5 rest, (forall i, (i < 10)%nat -> exists x,
  nth_error (skipn 11 (nineteen r0) ++ nineteen r1 ++ nineteen r2 ++ nineteen r3 ++ nineteen r4 ++ nineteen r5 ++ rest) (10 * i) = Some (word_of x)) /\
  nth_error (skipn 11 (nineteen r0) ++ nineteen r1 ++ nineteen r2 ++ nineteen r3 ++ nineteen r4 ++ nineteen r5 ++ rest) 90 = Some (word_of (snd (fst (fr_v r5)))).
Proof.
intros [w0 t0 [[a0 b0] c0] [[d0 e0] f0] [[g0 h0] i0] [[j0 k0] l0] [[m0 n0] o0] p0 q0]
       [w1 t1 [[a1 b1] c1] [[d1 e1] f1] [[g1 h1] i1] [[j1 k1] l1] [[m1 n1] o1] p1 q1]
       [w2 t2 [[a2 b2] c2] [[d2 e2] f2] [[g2 h2] i2] [[j2 k2] l2] [[m2 n2] o2] p2 q2]
       [w3 t3 [[a3 b3] c3] [[d3 e3] f3] [[g3 h3] i3] [[j3 k3] l3] [[m3 n3] o3] p3 q3]
       [w4 t4 [[a4 b4] c4] [[d4 e4] f4] [[g4 h4] i4] [[j4 k4] l4] [[m4 n4] o4] p4 q4]
       [w5 t5 [[a5 b5] c5] [[d5 e5] f5] [[g5 h5] i5] [[j5 k5] l5] [[m5 n5] o5] p5 q5] rest.
split; [| reflexivity].
intros i Hi. do 10 (destruct i as [| i]; [eexists; reflexivity |]). lia.
Qed.
Lemma nineteen_length : forall r, length (nineteen r) = 19%nat.
Proof.
intros r. unfold nineteen, three. destruct (fr_place r) as [[a b] c], (fr_v r) as [[d e] f], (fr_a r) as [[g h] i],
  (fr_gb r) as [[j k] l], (fr_ab r) as [[m n] o]. reflexivity.
Qed.
Lemma nice_rows : forall rs, Forall nice (flat_map nineteen rs).
Proof. induction rs as [| r rs IH]; [constructor |]. apply Forall_app. split; [apply nice_nineteen | assumption]. Qed.

Lemma write_tenth : forall ds d l w, length ds = 10%nat -> gen_write 0 (ds ++ d :: l) = Some w -> exists x y t, w = x :: y :: t /\ gen_of d = Some y.
Proof.
intros ds d l w L E. do 11 (destruct ds as [| ? ds]; [try discriminate L | try discriminate L]). cbn [app gen_write] in E.
repeat match type of E with context [gen_of ?a] => destruct (gen_of a) eqn:?; [| discriminate E] end.
destruct (gen_write 11 l); [| discriminate E]. injection E as <-. do 3 eexists. split; reflexivity.
Qed.

Lemma generate_full : forall r0 r1 r2 r3 r4 r5 rs b fuel, (200 + 19 * length rs < fuel)%nat ->
  exists x y t, generate fuel b (flat_map nineteen (r0 :: r1 :: r2 :: r3 :: r4 :: r5 :: rs)) = Ok (x :: y :: t) /\
  x = line_of (first_row r0) /\ w_time y = Q2R (d_frac (snd (fst (fr_v r5)))).
Proof.
intros r0 r1 r2 r3 r4 r5 rs b fuel F. unfold generate. cbn [flat_map]. set (rest := flat_map nineteen rs).
assert (length rest = 19 * length rs)%nat as Lrest.
{ unfold rest. clear. induction rs as [| r rs IH]; [reflexivity |]. cbn [flat_map length]. rewrite app_length, nineteen_length, IH. lia. }
set (W := skipn 11 (nineteen r0) ++ nineteen r1 ++ nineteen r2 ++ nineteen r3 ++ nineteen r4 ++ nineteen r5 ++ rest).
assert (Forall nice W) as NW.
{ unfold W. repeat match goal with |- Forall nice (_ ++ _) => apply Forall_app; split end; try apply nice_nineteen; [| apply nice_rows].
  pose proof (nice_nineteen r0) as N. rewrite nineteen_split in N. apply Forall_app in N. apply N. }
assert (length W = 103 + 19 * length rs)%nat as LW.
{ unfold W. rewrite !app_length, skipn_length, !nineteen_length, Lrest. lia. }
destruct (file_words r0 r1 r2 r3 r4 r5 rest) as [A B]. fold W in A, B.
replace fuel with (S (10 + (fuel - 11))) by lia. set (k := (fuel - 11)%nat).
destruct (turns 10 k b (rec (first_row r0)) W NW (rec_length _)) as [ds [Lds [Wd [T G]]]]; [lia | assumption |].
destruct (T 9%nat _ ltac:(lia) B) as [d [D1 D2]].
assert (written (last ds (rec (first_row r0)))) as Wl.
{ assert (In (last ds (rec (first_row r0))) ds) as I.
  { destruct ds as [| x ds]; [discriminate |]. rewrite last_cons. clear. revert x. induction ds as [| y ds IH]; intros x; [now left |]. rewrite last_cons. right. apply IH. }
  rewrite Forall_forall in Wd. auto. }
destruct (read_nice k b (last ds (rec (first_row r0))) (skipn (10 * 10) W)) as [ts [G2 Wt]].
{ rewrite <- (firstn_skipn (10 * 10) W) in NW. apply Forall_app in NW. apply NW. }
{ assumption. }
{ rewrite skipn_length, LW. unfold k. lia. }
cbn [gen_read]. change (nineteen r0 ++ nineteen r1 ++ nineteen r2 ++ nineteen r3 ++ nineteen r4 ++ nineteen r5 ++ rest) with
  (nineteen r0 ++ (nineteen r1 ++ nineteen r2 ++ nineteen r3 ++ nineteen r4 ++ nineteen r5 ++ rest)).
rewrite (nineteen_split r0), <- app_assoc. fold W. rewrite (extract_row (first_row r0)) by (auto using first_eleven).
destruct W as [| w0 W0] eqn:EW; [simpl in LW; lia |]. rewrite <- EW in *. cbv iota beta. rewrite G, G2.
assert (Forall written ((rec (first_row r0) :: ds) ++ ts)) as Wall.
{ apply Forall_app. split; [constructor; [split; [apply rec_length |] | assumption] | assumption].
  unfold rec. constructor; [discriminate |]. apply Forall_forall. intros v Hv. apply in_map_iff in Hv. destruct Hv as [q [<- _]]. discriminate. }
destruct (write_written _ 0%nat Wall) as [w Hw]. cbn [app] in Hw. rewrite Hw.
apply nth_error_split in D1. destruct D1 as [d1 [d2 [Eds Ld1]]]. assert (d2 = []) as -> by (rewrite Eds, app_length in Lds; destruct d2; [reflexivity | simpl in Lds; lia]).
rewrite Eds in Hw. rewrite <- app_assoc in Hw. cbn [app] in Hw.
destruct (write_tenth (rec (first_row r0) :: d1) d ts w) as [x [y [t [-> Hy]]]]; [simpl; lia | exact Hw |].
exists x, y, t. split; [reflexivity |]. split.
- cbn [gen_write] in Hw. rewrite of_rec in Hw. destruct (gen_write 1 (d1 ++ d :: ts)); [| discriminate Hw]. cbn in Hw. congruence.
- assert (written d) as [Ld Kd].
  { rewrite Forall_forall in Wd. apply Wd. rewrite Eds. apply in_or_app. right. now left. }
  do 12 (destruct d as [| ? d]; try discriminate Ld). cbn [nth] in D2. subst.
  unfold gen_of in Hy. repeat match type of Hy with context [match ?v with Known _ => _ | Indet => _ end] => is_var v; destruct v; [| discriminate Hy] end.
  injection Hy as <-. reflexivity.
Qed.
