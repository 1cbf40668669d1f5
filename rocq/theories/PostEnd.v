(** The program ends. *)
From Coq Require Import QArith List Arith Bool ZArith Lia.
From Verif Require Import MergeModel MergeSpec MergeProofs MergeProofs2 SmoothModel FusionBase ApiModel ApiSpec ApiProofs ApiCases PostModel PostSpec PostProofs PostTime.
Import ListNotations.
Local Open Scope nat_scope.

Fixpoint total (f : nat -> nat) (n : nat) : nat := match n with O => O | S k => f k + total f k end.
Lemma total_le f g n : (forall i, i < n -> f i <= g i) -> total f n <= total g n.
Proof. induction n as [|n IH]; intros H; simpl; [lia|]. specialize (H n (Nat.lt_succ_diag_r n)) as A. assert (total f n <= total g n) by (apply IH; intros; apply H; lia). lia. Qed.
Lemma total_lt f g n k : (forall i, i < n -> f i <= g i) -> k < n -> f k < g k -> total f n < total g n.
Proof.
  induction n as [|n IH]; intros H K L; simpl; [lia|]. assert (f n <= g n) by (apply H; lia).
  destruct (Nat.eq_dec k n) as [->|N].
  - assert (total f n <= total g n) by (apply total_le; intros; apply H; lia). lia.
  - assert (total f n < total g n) by (apply IH; [intros; apply H; lia|lia|exact L]). lia.
Qed.
Definition rest (m : manager) : nat := total (fun i => length (que m i) - position m i) (que_num m).

Lemma next_rest m : ready m -> (get_next m = Done (None, m)) \/
  exists d m', get_next m = Done (Some d, m') /\ ready m' /\ rest m' < rest m.
Proof.
  intros Rd. destruct (get_next_spec m Rd) as [(i & _ & _ & E)|(sel & d & Ls & N & _ & _ & E)]; [left; exact E|right].
  eexists; eexists; split; [exact E|]. split; [now apply ready_next|].
  unfold rest. cbn [que position que_num]. apply (total_lt _ _ _ sel); [|exact Ls|].
  - intros i _. unfold upd. destruct (Nat.eqb_spec i sel); [subst; lia|lia].
  - unfold upd. rewrite Nat.eqb_refl. assert (position m sel < length (que m sel)) by (apply nth_error_Some; congruence). lia.
Qed.
Lemma take_all n : forall m, ready m -> rest m < n -> exists l m', take n m = Done (l, true, m') /\ length l <= rest m.
Proof.
  induction n as [|n IH]; intros m Rd L; [lia|]. cbn [take].
  destruct (next_rest m Rd) as [->|(d & m1 & -> & R1 & L1)]; [exists [], m; split; [reflexivity|simpl; lia]|].
  destruct (IH m1 R1) as (l & m' & E & B); [lia|]. rewrite E. exists (d :: l), m'. split; [reflexivity|simpl; lia].
Qed.
Lemma move_all n target : forall m, ready m -> rest m < n -> exists m', move_to_time n target m = Some (Done m') /\ ready m' /\ rest m' <= rest m.
Proof.
  induction n as [|n IH]; intros m Rd L; [lia|]. cbn [move_to_time].
  destruct (next_rest m Rd) as [->|(d & m1 & -> & R1 & L1)]; [exists m; auto|].
  destruct (Qltb _ _); [|exists m1; split; [reflexivity|split; [exact R1|lia]]].
  destruct (IH m1 R1) as (m' & E & A & B); [lia|]. exists m'. split; [exact E|split; [exact A|lia]].
Qed.
Lemma built_rest (g : bool) imu gnss : rest (built g imu gnss) <= length imu + length gnss.
Proof. destruct g; cbn; lia. Qed.
Lemma imus_bound c ss : length (imus (calls_of c ss)) <= length ss.
Proof.
  rewrite calls_imus, map_length. induction ss as [|s ss IH]; simpl; [lia|]. destruct (s_type s); simpl; lia.
Qed.

Lemma program_ends c (g : bool) imu gnss start mem j p0 opt init n :
  MergeSpec.usable (if g then 2 else 1)%nat (streams imu gnss) -> (length imu + length gnss < n)%nat ->
  (Z.of_nat (length imu + length gnss) <= int_max)%Z ->
  exists t, post_main c n start (built g imu gnss) mem j p0 opt init = Some (Done (Some t)).
Proof.
  intros U L B. assert (Rd := built_ready g imu gnss U). assert (RB := built_rest g imu gnss).
  destruct (move_all n start _ Rd) as (m1 & E1 & R1 & L1); [lia|].
  destruct (take_all n m1 R1) as (ss & m2 & E2 & L2); [lia|].
  unfold post_main. rewrite E1, E2.
  destruct (api_init mem j (Some opt) (Some init)) as [[d e]|] eqn:I; [|discriminate].
  destruct (init_status _ _ _ _ _ _ I) as (_ & ->).
  destruct (post_run c (Post d (Some p0) []) ss) as [t|] eqn:P; [eauto|]. exfalso.
  apply post_none in P. cbn [t_dev] in P.
  destruct (history_defined _ _ _ _ _ (calls_of c ss) I (calls_quiet c ss)) as (d1 & l & E); [|congruence].
  assert (K := imus_bound c ss). lia.
Qed.
