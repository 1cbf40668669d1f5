From Coq Require Import QArith List Bool Sorted Lia.
From Verif Require Import ReaderModel ProgramSpec.
Import ListNotations.
Local Open Scope nat_scope.

Lemma merged_cons r rs g gs : merged (r :: rs) (g :: gs) =
  if Qle_bool (nth 0 r 0%Q) (g_time g) then Sample r :: merged rs (g :: gs) else Fix g :: merged (r :: rs) gs.
Proof. reflexivity. Qed.
Lemma merged_nil rs : merged rs [] = []. Proof. destruct rs; reflexivity. Qed.

Lemma merged_prefix : forall rs gs, prefix (samples_in (merged rs gs)) rs /\ prefix (fixes_in (merged rs gs)) gs /\
  (samples_in (merged rs gs) = rs \/ fixes_in (merged rs gs) = gs).
Proof.
  induction rs as [|r rs IH]; intros gs.
  - destruct gs; cbn; (split; [now exists []|]); (split; [eexists; reflexivity|now left]).
  - induction gs as [|g gs IG].
    + cbn. split; [eexists; reflexivity|]. split; [now exists []|now right].
    + rewrite merged_cons. destruct (Qle_bool _ _).
      * destruct (IH (g :: gs)) as ((a & A) & B & C). cbn [samples_in fixes_in flat_map]. fold (samples_in (merged rs (g :: gs))). fold (fixes_in (merged rs (g :: gs))).
        cbn [app]. split; [exists a; cbn [app]; f_equal; exact A|]. split; [exact B|]. destruct C as [C|C]; [left; now rewrite C|now right].
      * destruct IG as (A & (b & B) & C). cbn [samples_in fixes_in flat_map]. fold (samples_in (merged (r :: rs) gs)). fold (fixes_in (merged (r :: rs) gs)).
        cbn [app]. split; [exact A|]. split; [exists b; cbn [app]; f_equal; exact B|]. destruct C as [C|C]; [now left|right; now rewrite C].
Qed.

Definition later (a b : event) : Prop := (event_time a <= event_time b)%Q.
Lemma merged_in rs gs e : In e (merged rs gs) -> (exists r, e = Sample r /\ In r rs) \/ (exists g, e = Fix g /\ In g gs).
Proof.
  revert gs. induction rs as [|r rs IH]; intros gs.
  - destruct gs; intros [].
  - induction gs as [|g gs IG]; [intros []|]. rewrite merged_cons. destruct (Qle_bool _ _); intros [<-|H].
    + left. exists r. split; [reflexivity|now left].
    + destruct (IH _ H) as [(x & -> & X)|(x & -> & X)]; [left; exists x; split; [reflexivity|now right]|right; exists x; auto].
    + right. exists g. split; [reflexivity|now left].
    + destruct (IG H) as [(x & -> & X)|(x & -> & X)]; [left; exists x; auto|right; exists x; split; [reflexivity|now right]].
Qed.
Lemma qle_flip a b : Qle_bool a b = false -> (b <= a)%Q.
Proof. intros H. destruct (Qlt_le_dec a b) as [L|L]; [|exact L]. apply Qlt_le_weak, Qle_bool_iff in L. congruence. Qed.

Lemma merged_sorted : forall rs gs, in_order rs -> fixes_in_order gs -> StronglySorted later (merged rs gs).
Proof.
  induction rs as [|r rs IH]; intros gs O F.
  - destruct gs; constructor.
  - induction gs as [|g gs IG]; [constructor|]. rewrite merged_cons.
    inversion O as [|? ? O1 O2]; subst. inversion F as [|? ? F1 F2]; subst. rewrite Forall_forall in O2, F2.
    destruct (Qle_bool _ _) eqn:E.
    + apply Qle_bool_iff in E. constructor; [now apply IH|]. apply Forall_forall. intros e H. unfold later. cbn [event_time].
      destruct (merged_in _ _ _ H) as [(x & -> & X)|(x & -> & X)]; cbn [event_time]; [now apply O2|].
      destruct X as [<-|X]; [exact E|]. eapply Qle_trans; [exact E|now apply F2].
    + apply qle_flip in E. constructor; [now apply IG|]. apply Forall_forall. intros e H. unfold later. cbn [event_time].
      destruct (merged_in _ _ _ H) as [(x & -> & X)|(x & -> & X)]; cbn [event_time]; [|now apply F2].
      destruct X as [<-|X]; [exact E|]. eapply Qle_trans; [exact E|now apply O2].
Qed.
Lemma samples_sorted rs : in_order rs -> StronglySorted later (map Sample rs).
Proof.
  induction 1 as [|r rs O IH F]; cbn; constructor; [exact IH|]. apply Forall_forall. intros e H. apply in_map_iff in H. destruct H as (x & <- & X).
  rewrite Forall_forall in F. exact (F x X).
Qed.
Lemma behind_suffix t l : exists a, l = a ++ behind t l.
Proof. induction l as [|e l (a & A)]; [now exists []|]. cbn. destruct (Qle_bool _ _); [now exists [e]|]. exists (e :: a). cbn. now rewrite <- A. Qed.
Lemma sorted_suffix {A} (P : A -> A -> Prop) a l : StronglySorted P (a ++ l) -> StronglySorted P l.
Proof. induction a as [|x a IH]; cbn; [auto|]. intros H. inversion H; auto. Qed.

(** the events worked off: in the order of time, none twice, none left out in between *)
Lemma order g t rs gs : in_order rs -> (g = true -> fixes_in_order gs) -> StronglySorted later (behind t (events g rs gs)).
Proof.
  intros O F. destruct (behind_suffix t (events g rs gs)) as (a & A). apply sorted_suffix with a. rewrite <- A. unfold events.
  destruct g; [apply merged_sorted; auto|now apply samples_sorted].
Qed.
Lemma samples_app a b : samples_in (a ++ b) = samples_in a ++ samples_in b. Proof. apply flat_map_app. Qed.
Lemma fixes_app a b : fixes_in (a ++ b) = fixes_in a ++ fixes_in b. Proof. apply flat_map_app. Qed.
Lemma samples_map rs : samples_in (map Sample rs) = rs. Proof. induction rs; cbn; [reflexivity|]. f_equal. exact IHrs. Qed.
Lemma fixes_map rs : fixes_in (map Sample rs) = []. Proof. induction rs; cbn; auto. Qed.
Lemma pieces g t rs gs : piece (samples_in (behind t (events g rs gs))) rs /\ piece (fixes_in (behind t (events g rs gs))) gs.
Proof.
  destruct (behind_suffix t (events g rs gs)) as (a & A). unfold events in *. destruct g.
  - destruct (merged_prefix rs gs) as ((b & HB) & (c & C) & _). rewrite A in HB at 1. rewrite A in C at 1. rewrite samples_app in HB. rewrite fixes_app in C.
    split; [exists (samples_in a), b; now rewrite app_assoc|exists (fixes_in a), c; now rewrite app_assoc].
  - assert (HB := samples_map rs). assert (C := fixes_map rs). rewrite A in HB at 1. rewrite A in C at 1. rewrite samples_app in HB. rewrite fixes_app in C.
    split; [exists (samples_in a), []; now rewrite app_nil_r|]. apply app_eq_nil in C. destruct C as (_ & ->). exists [], gs. reflexivity.
Qed.
