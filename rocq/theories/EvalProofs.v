(** Proofs about the comparison with a reference. *)
From Coq Require Import Reals List Sorted Arith Lia Lra ZArith.
From Verif Require Import EarthModel EvalModel EvalSpec.
Import ListNotations.
Open Scope R_scope.

(** ** Loops *)
Lemma same_refl a : same_angle a a. Proof. exists 0%Z. lra. Qed.
Lemma same_trans a b c : same_angle a b -> same_angle b c -> same_angle a c.
Proof. intros [k K] [l L]. exists (k + l)%Z. rewrite plus_IZR. lra. Qed.
Lemma same_sym a b : same_angle a b -> same_angle b a.
Proof. intros [k K]. exists (- k)%Z. rewrite opp_IZR. lra. Qed.
Lemma same_minus a b c d : same_angle a b -> same_angle c d -> same_angle (a - c) (b - d).
Proof. intros [k K] [l L]. exists (k - l)%Z. rewrite minus_IZR. lra. Qed.
Lemma same_plus a b c : same_angle a b -> same_angle (a + c) (b + c).
Proof. intros [k K]. exists k. lra. Qed.
Lemma lower_same n p : forall x, same_angle (lower n p x) x.
Proof.
  induction n as [|n IH]; intros x; cbn [lower]; [apply same_refl|]. destruct (Rlt_dec 180 (x - p)); [|apply same_refl].
  apply same_trans with (x - 360); [apply IH|]. exists (-1)%Z. lra.
Qed.
Lemma raise_same n p : forall x, same_angle (raise n p x) x.
Proof.
  induction n as [|n IH]; intros x; cbn [raise]; [apply same_refl|]. destruct (Rlt_dec (x - p) (-180)); [|apply same_refl].
  apply same_trans with (x + 360); [apply IH|]. exists 1%Z. lra.
Qed.
(** the rounds given are enough *)
Lemma lower_done n p : forall x, x - p <= 360 * INR n + 180 -> lower n p x - p <= 180 /\ (lower n p x = x \/ -180 < lower n p x - p).
Proof.
  induction n as [|n IH]; intros x H; cbn [lower]; [cbn [INR] in H; split; [lra|left; reflexivity]|].
  rewrite S_INR in H. destruct (Rlt_dec 180 (x - p)) as [L|L]; [|split; [lra|left; reflexivity]].
  destruct (IH (x - 360) ltac:(lra)) as [A [B|B]]; (split; [exact A|right; lra]).
Qed.
Lemma raise_done n p : forall x, p - x <= 360 * INR n + 180 -> -180 <= raise n p x - p /\ (raise n p x = x \/ raise n p x - p < 180).
Proof.
  induction n as [|n IH]; intros x H; cbn [raise]; [cbn [INR] in H; split; [lra|left; reflexivity]|].
  rewrite S_INR in H. destruct (Rlt_dec (x - p) (-180)) as [L|L]; [|split; [lra|left; reflexivity]].
  destruct (IH (x + 360) ltac:(lra)) as [A [B|B]]; (split; [exact A|right; lra]).
Qed.
Lemma rounds_enough x : x <= 360 * INR (Z.to_nat (up (x / 360))) + 180.
Proof.
  destruct (archimed (x / 360)) as [A _]. assert (B : IZR (up (x / 360)) <= INR (Z.to_nat (up (x / 360)))).
  { rewrite INR_IZR_INZ. apply IZR_le. lia. }
  lra.
Qed.
Lemma wrapped p x : -180 <= raise_all p (lower_all p x) - p <= 180 /\ same_angle (raise_all p (lower_all p x)) x.
Proof.
  unfold raise_all, lower_all. set (y := lower _ p x). assert (Y : y - p <= 180) by (apply lower_done, rounds_enough).
  set (n := Z.to_nat (up ((p - y) / 360))). destruct (raise_done n p y (rounds_enough (p - y))) as [A B].
  split; [split; [exact A|destruct B as [->|B]; lra]|].
  apply same_trans with y; [apply raise_same|apply lower_same].
Qed.
Lemma once360_same x : same_angle (once360 x) x.
Proof.
  unfold once360. destruct (Rlt_dec x 0).
  - destruct (Rlt_dec 360 (x + 360)); [exists 0%Z|exists 1%Z]; lra.
  - destruct (Rlt_dec 360 x); [exists (-1)%Z|exists 0%Z]; lra.
Qed.

(** ** Interpolation *)
Lemma interp_app_from pre : forall x0 y0 xa ya xb yb post v, (forall k, In k pre -> fst k < v) -> xa < v <= xb ->
  interp_from x0 y0 (pre ++ (xa, ya) :: (xb, yb) :: post) v = Val (ya + (yb - ya) * ((v - xa) / (xb - xa))).
Proof.
  induction pre as [|[x y] pre IH]; intros x0 y0 xa ya xb yb post v P H; cbn [app interp_from].
  - destruct (Rle_dec v xa); [lra|]. destruct (Rle_dec v xb); [|lra]. destruct (Req_EM_T xb xa); [lra|].
    f_equal. field. lra.
  - assert (L := P (x, y) (or_introl eq_refl)). cbn [fst] in L. destruct (Rle_dec v x); [lra|].
    apply IH; [|exact H]. intros k K. apply P. right. exact K.
Qed.
Lemma interp_app pre xa ya xb yb post v : (forall k, In k pre -> fst k < v) -> xa < v <= xb ->
  interp1d (pre ++ (xa, ya) :: (xb, yb) :: post) v = Val (ya + (yb - ya) * ((v - xa) / (xb - xa))).
Proof.
  intros P H. destruct pre as [|[x y] pre]; cbn [app interp1d].
  - destruct (Rlt_dec v xa); [lra|]. cbn [interp_from]. destruct (Rle_dec v xb); [|lra]. destruct (Req_EM_T xb xa); [lra|].
    f_equal. field. lra.
  - assert (L := P (x, y) (or_introl eq_refl)). cbn [fst] in L. destruct (Rlt_dec v x); [lra|].
    apply interp_app_from; [|exact H]. intros k K. apply P. right. exact K.
Qed.
Lemma sorted_before pre a post : StronglySorted Rlt (pre ++ a :: post) -> forall x, In x pre -> x < a.
Proof.
  induction pre as [|y pre IH]; cbn [app]; intros S x I; [destruct I|]. inversion S as [|? ? S1 F]; subst.
  destruct I as [->|I]; [|apply IH; assumption]. rewrite Forall_forall in F. apply F, in_or_app. right. left. reflexivity.
Qed.
Lemma around_before ref a b t : ascending ref -> around ref a b t -> exists pre post, ref = pre ++ a :: b :: post /\ (forall x, In x (map r_t pre) -> x < t).
Proof.
  intros S [(pre & post & ->) [A B]]. exists pre, post. split; [reflexivity|]. intros x I.
  unfold ascending in S. rewrite map_app in S. cbn [map] in S. assert (L := sorted_before _ _ _ S x I). lra.
Qed.
Lemma ref_column_at f ref a b t : ascending ref -> around ref a b t -> ref_column f ref t = Val (at_time f a b t).
Proof.
  intros S H. destruct (around_before ref a b t S H) as (pre & post & -> & P). destruct H as [_ H]. unfold ref_column, at_time, part.
  rewrite map_app. cbn [map]. rewrite interp_app; [reflexivity| |exact H].
  intros k K. apply in_map_iff in K as (r & <- & R). cbn [fst]. apply P, in_map, R.
Qed.

(** ** Headings *)
Lemma unwrap_from_app pre : forall p a b post, exists pre' a' b' post',
  unwrap_from p (pre ++ a :: b :: post) = pre' ++ a' :: b' :: post' /\ length pre' = length pre /\
  same_angle a' a /\ same_angle b' b /\ -180 <= b' - a' <= 180.
Proof.
  induction pre as [|x pre IH]; intros p a b post; cbn [app unwrap_from].
  - set (a' := raise_all p (lower_all p a)). destruct (wrapped p a) as [_ A]. destruct (wrapped a' b) as [C B].
    exists [], a', (raise_all a' (lower_all a' b)), (unwrap_from (raise_all a' (lower_all a' b)) post).
    split; [reflexivity|]. split; [reflexivity|]. auto.
  - destruct (IH (raise_all p (lower_all p x)) a b post) as (pre' & a' & b' & post' & E & L & R).
    exists (raise_all p (lower_all p x) :: pre'), a', b', post'. rewrite E. cbn [app length]. auto.
Qed.
Lemma unwrap_app pre a b post : exists pre' a' b' post',
  unwrap (pre ++ a :: b :: post) = pre' ++ a' :: b' :: post' /\ length pre' = length pre /\
  same_angle a' a /\ same_angle b' b /\ -180 <= b' - a' <= 180.
Proof.
  destruct pre as [|x pre]; cbn [app unwrap].
  - cbn [unwrap_from]. destruct (wrapped a b) as [C B].
    exists [], a, (raise_all a (lower_all a b)), (unwrap_from (raise_all a (lower_all a b)) post). repeat split; auto using same_refl; lra.
  - destruct (unwrap_from_app pre x a b post) as (pre' & a' & b' & post' & E & L & R).
    exists (x :: pre'), a', b', post'. rewrite E. cbn [app length]. auto.
Qed.
Lemma combine_app {A B} (a : list A) : forall (b : list B) a' b', length a = length b -> combine (a ++ a') (b ++ b') = combine a b ++ combine a' b'.
Proof. induction a as [|x a IH]; intros [|y b] a' b' L; cbn in L; try discriminate; cbn [app combine]; [reflexivity|]. rewrite IH by lia. reflexivity. Qed.
Lemma ref_heading_at ref a b t : ascending ref -> around ref a b t -> exists a' d,
  same_angle a' (r_yaw a) /\ same_angle d (r_yaw b - r_yaw a) /\ -180 <= d <= 180 /\ ref_heading ref t = Val (a' + d * part a b t).
Proof.
  intros S H. destruct (around_before ref a b t S H) as (pre & post & -> & P). destruct H as [_ H]. unfold ref_heading.
  rewrite !map_app. cbn [map]. destruct (unwrap_app (map r_yaw pre) (r_yaw a) (r_yaw b) (map r_yaw post)) as (pre' & a' & b' & post' & -> & L & A & B & D).
  exists a', (b' - a'). split; [exact A|]. split; [apply same_minus; assumption|]. split; [exact D|].
  rewrite map_length in L. rewrite combine_app by (rewrite map_length; lia). cbn [combine]. apply interp_app; [|exact H].
  intros [k y] K. apply in_combine_l in K. apply P, K.
Qed.
Lemma yaw_error ref a b r : ascending ref -> around ref a b (r_t r) -> exists d e,
  same_angle d (r_yaw b - r_yaw a) /\ -180 <= d <= 180 /\
  err_yaw ref r = Val e /\ -180 <= e <= 180 /\ same_angle e (r_yaw r - (r_yaw a + d * part a b (r_t r))).
Proof.
  intros S H. destruct (ref_heading_at ref a b _ S H) as (a' & d & A & D & B & E). unfold err_yaw. rewrite E. cbn [smap].
  set (y := a' + d * part a b (r_t r)). exists d, (wrap (once360 (r_yaw r) - once360 y)). split; [exact D|]. split; [exact B|]. split; [reflexivity|].
  unfold wrap. destruct (wrapped 0 (once360 (r_yaw r) - once360 y)) as [C W]. split; [lra|].
  eapply same_trans; [exact W|]. apply same_minus; [apply once360_same|].
  eapply same_trans; [apply once360_same|]. unfold y. apply same_plus, A.
Qed.

(** ** Errors *)
Lemma py_RM_is x : py_RM x = RM x. Proof. reflexivity. Qed.
Lemma py_RN_is x : py_RN x = RN x. Proof. reflexivity. Qed.
Lemma rad_is x : rad x = x * (PI / 180). Proof. unfold rad. field. Qed.
Lemma err_2_is ref a b r : ascending ref -> around ref a b (r_t r) -> err_2 ref r = Val (east_of a b r).
Proof.
  intros S H. unfold err_2. rewrite !(ref_column_at _ ref a b _ S H). cbn [smap2]. f_equal. unfold py_dE, east_of. rewrite !rad_is, py_RN_is. cbv zeta. ring.
Qed.
Lemma err_3_is ref a b r : ascending ref -> around ref a b (r_t r) -> err_3 ref r = Val (north_of a b r).
Proof.
  intros S H. unfold err_3. rewrite !(ref_column_at _ ref a b _ S H). cbn [smap]. f_equal. unfold py_dN, north_of. rewrite !rad_is, py_RM_is. ring.
Qed.
Lemma err_plain_is f ref a b r : ascending ref -> around ref a b (r_t r) -> err_plain f ref r = Val (f r - at_time f a b (r_t r)).
Proof. intros S H. unfold err_plain. rewrite !(ref_column_at _ ref a b _ S H). reflexivity. Qed.
Lemma err_2d_is ref a b r : ascending ref -> around ref a b (r_t r) -> err_2d ref r = Val (sqrt (east_of a b r ^ 2 + north_of a b r ^ 2)).
Proof. intros S H. unfold err_2d. rewrite (err_2_is ref a b r S H), (err_3_is ref a b r S H). reflexivity. Qed.
Lemma err_3d_is ref a b r : ascending ref -> around ref a b (r_t r) ->
  err_3d ref r = Val (sqrt (east_of a b r ^ 2 + north_of a b r ^ 2 + above a b r ^ 2)).
Proof. intros S H. unfold err_3d. rewrite (err_2_is ref a b r S H), (err_3_is ref a b r S H), (err_plain_is _ ref a b r S H). reflexivity. Qed.

(** every common row lies between two neighbours *)
Lemma last_default {A} (l : list A) : forall x d e, last (x :: l) d = last (x :: l) e.
Proof. induction l as [|y l IH]; intros x d e; [reflexivity|]. exact (IH y d e). Qed.
Lemma neighbours l : forall a t, r_t a < t -> t < r_t (last (a :: l) a) -> exists pre x y post, a :: l = pre ++ x :: y :: post /\ r_t x < t <= r_t y.
Proof.
  induction l as [|b l IH]; intros a t A B; [cbn in B; lra|].
  destruct (Rle_dec t (r_t b)) as [L|L].
  - exists [], a, b, l. split; [reflexivity|]. split; lra.
  - assert (C : last (a :: b :: l) a = last (b :: l) b).
    { change (last (a :: b :: l) a) with (last (b :: l) a). apply last_default. }
    rewrite C in B. destruct (IH b t ltac:(lra) B) as (pre & x & y & post & E & R). exists (a :: pre), x, y, post. rewrite E. auto.
Qed.
Lemma common_around target ref r : In r (common target ref) -> exists a b, around ref a b (r_t r).
Proof.
  unfold common. destruct ref as [|a l]; [intros []|]. intros I. apply filter_In in I as [_ I].
  destruct (Rlt_dec (r_t r) (r_t (last (a :: l) a))) as [L|]; [|discriminate]. destruct (Rlt_dec (r_t a) (r_t r)) as [M|]; [|discriminate].
  destruct (neighbours l a (r_t r) M L) as (pre & x & y & post & E & R). exists x, y. split; [exists pre, post; exact E|exact R].
Qed.
Lemma values_all (f : row -> sample) l : (forall r, In r l -> exists x, f r = Val x) -> exists v, values (map f l) = Some v /\ length v = length l /\ Forall2 (fun r x => f r = Val x) l v.
Proof.
  induction l as [|r l IH]; intros H; cbn [map values]; [exists []; repeat split; constructor|].
  destruct (H r (or_introl eq_refl)) as [x X]. destruct IH as (v & V & L & F); [intros; apply H; right; assumption|].
  rewrite X, V. exists (x :: v). cbn [length]. repeat split; [lia|constructor; assumption].
Qed.
