(** Proofs about the data manager model. *)
From Coq Require Import QArith List Arith Bool Lia Sorted.
From Verif Require Import MergeModel MergeSpec.
Import ListNotations.

Lemma Qltb_lt x y : Qltb x y = true <-> x < y.
Proof.
  unfold Qltb. rewrite negb_true_iff. split; intro H.
  - apply Qnot_le_lt. intro C. apply Qle_bool_iff in C. congruence.
  - destruct (Qle_bool y x) eqn:E; [|reflexivity]. apply Qle_bool_iff in E.
    exfalso. exact (Qlt_not_le _ _ H E).
Qed.
Lemma Qltb_ge x y : Qltb x y = false <-> y <= x.
Proof.
  unfold Qltb. rewrite negb_false_iff. apply Qle_bool_iff.
Qed.

(** ** argmin *)
Definition is_argmin (l : list Q) (k : nat) : Prop :=
  exists x, nth_error l k = Some x /\
    forall j y, nth_error l j = Some y -> x <= y /\ (y == x -> (k <= j)%nat).

Lemma argmin_loop_spec : forall l mv am pre,
  nth_error pre am = Some mv ->
  (forall j y, nth_error pre j = Some y -> mv <= y /\ (y == mv -> (am <= j)%nat)) ->
  is_argmin (pre ++ l) (argmin_loop l (length pre) mv am).
Proof.
  induction l as [|a l IH]; intros mv am pre H1 H2.
  - rewrite app_nil_r. cbn. exists mv. auto.
  - cbn [argmin_loop].
    replace (pre ++ a :: l) with ((pre ++ [a]) ++ l) by (rewrite <- app_assoc; reflexivity).
    replace (S (length pre)) with (length (pre ++ [a])) by (rewrite app_length; cbn; lia).
    assert (Ham : (am < length pre)%nat) by (apply nth_error_Some; congruence).
    destruct (Qltb a mv) eqn:E.
    + apply Qltb_lt in E. apply IH.
      * rewrite nth_error_app2 by lia. rewrite Nat.sub_diag. reflexivity.
      * intros j y Hj. destruct (Nat.lt_ge_cases j (length pre)) as [Hlt|Hge].
        -- rewrite nth_error_app1 in Hj by lia. destruct (H2 j y Hj) as [H3 _].
           split; [apply Qlt_le_weak; eapply Qlt_le_trans; eauto|].
           intro Hy. exfalso. rewrite Hy in H3. exact (Qlt_not_le _ _ E H3).
        -- rewrite nth_error_app2 in Hj by lia.
           destruct (j - length pre)%nat as [|n] eqn:Ej; [|destruct n; discriminate].
           injection Hj as <-. split; [apply Qle_refl|intros _; lia].
    + apply Qltb_ge in E. apply IH.
      * rewrite nth_error_app1 by lia. exact H1.
      * intros j y Hj. destruct (Nat.lt_ge_cases j (length pre)) as [Hlt|Hge].
        -- rewrite nth_error_app1 in Hj by lia. auto.
        -- rewrite nth_error_app2 in Hj by lia.
           destruct (j - length pre)%nat as [|n] eqn:Ej; [|destruct n; discriminate].
           injection Hj as <-. split; [exact E|intros _; lia].
Qed.

Lemma argmin_spec l : l <> [] -> Forall (fun x => x < INT_MAX) l -> is_argmin l (argmin l).
Proof.
  intros Hn Hl. destruct l as [|a l]; [congruence|]. inversion Hl as [|? ? Ha _]; subst.
  unfold argmin. cbn [argmin_loop]. apply Qltb_lt in Ha. rewrite Ha.
  apply (argmin_loop_spec l a 0 [a]); [reflexivity|].
  intros j y Hj. destruct j as [|j]; [|destruct j; discriminate].
  injection Hj as <-. split; [apply Qle_refl|lia].
Qed.

(** ** heads *)
Lemma heads_some m : forall n i t, heads m i n = Some t ->
  length t = n /\ forall j, (j < n)%nat ->
    exists s, nth_error (que m (i + j)) (position m (i + j)) = Some s /\ nth_error t j = Some (s_time s).
Proof.
  induction n as [|n IH]; intros i t H; cbn [heads] in H.
  - injection H as <-. split; [reflexivity|lia].
  - destruct (nth_error (que m i) (position m i)) as [s|] eqn:E; [|discriminate].
    destruct (heads m (S i) n) as [l|] eqn:El; [|discriminate]. injection H as <-.
    destruct (IH _ _ El) as [H1 H2]. split; [cbn; lia|].
    intros j Hj. destruct j as [|j].
    + rewrite Nat.add_0_r. exists s. auto.
    + replace (i + S j)%nat with (S i + j)%nat by lia. apply H2. lia.
Qed.
Lemma heads_none m : forall n i, heads m i n = None ->
  exists j, (j < n)%nat /\ nth_error (que m (i + j)) (position m (i + j)) = None.
Proof.
  induction n as [|n IH]; intros i H; cbn [heads] in H; [discriminate|].
  destruct (nth_error (que m i) (position m i)) as [s|] eqn:E.
  - destruct (heads m (S i) n) as [l|] eqn:El; [discriminate|].
    destruct (IH _ El) as [j [Hj Hn]]. exists (S j). split; [lia|].
    replace (i + S j)%nat with (S i + j)%nat by lia. exact Hn.
  - exists 0%nat. rewrite Nat.add_0_r. split; [lia|exact E].
Qed.

(** a manager as the application sets it up *)
Definition ready (m : manager) : Prop :=
  (1 <= que_num m <= 3)%nat /\ usable (que_num m) (que m) /\
  forall i, (i < que_num m)%nat -> (position m i <= length (que m i))%nat.

Lemma get_next_spec m : ready m ->
  (exists i, (i < que_num m)%nat /\ position m i = length (que m i) /\ get_next m = Done (None, m)) \/
  (exists sel d, (sel < que_num m)%nat /\ nth_error (que m sel) (position m sel) = Some d /\
     (forall i s, (i < que_num m)%nat -> nth_error (que m i) (position m i) = Some s ->
        s_time d <= s_time s /\ (s_time s == s_time d -> (sel <= i)%nat)) /\
     (forall i, (i < que_num m)%nat -> (position m i < length (que m i))%nat) /\
     get_next m = Done (Some d,
       {| que := que m; position := upd (position m) sel (S (position m sel));
          que_num := que_num m; check := check_update d (check m) |})).
Proof.
  intros [Hn [Hu Hp]]. unfold get_next.
  replace (Nat.ltb max_que_num (que_num m)) with false by (symmetry; apply Nat.ltb_ge; unfold max_que_num; lia).
  destruct (heads m 0 (que_num m)) as [t|] eqn:E.
  - right. destruct (heads_some _ _ _ _ E) as [Hl Ht].
    assert (Hne : t <> []) by (destruct t; [cbn in Hl; lia|discriminate]).
    assert (Hall : Forall (fun x => x < INT_MAX) t).
    { apply Forall_forall. intros x Hx. apply In_nth_error in Hx. destruct Hx as [j Hj].
      assert (Hjn : (j < que_num m)%nat) by (rewrite <- Hl; apply nth_error_Some; congruence).
      destruct (Ht j Hjn) as [s [Hs Hts]]. rewrite Hts in Hj. injection Hj as <-.
      destruct (Hu j Hjn) as [_ Hb]. rewrite Forall_forall in Hb. apply Hb.
      eapply nth_error_In. exact Hs. }
    destruct (argmin_spec t Hne Hall) as [x [Hx Hmin]].
    assert (Hsel : (argmin t < que_num m)%nat) by (rewrite <- Hl; apply nth_error_Some; congruence).
    destruct (Ht _ Hsel) as [d [Hd Htd]]. cbn [Nat.add] in Hd. rewrite Hd. rewrite Hx in Htd. injection Htd as ->.
    exists (argmin t), d. split; [exact Hsel|]. split; [exact Hd|]. split; [|split; [|reflexivity]].
    + intros i s Hi Hs. destruct (Ht i Hi) as [s' [Hs' Hts']]. cbn [Nat.add] in Hs'.
      rewrite Hs in Hs'. injection Hs' as <-. exact (Hmin i _ Hts').
    + intros i Hi. destruct (Ht i Hi) as [s' [Hs' _]]. apply nth_error_Some. cbn [Nat.add] in Hs'. congruence.
  - left. destruct (heads_none _ _ _ E) as [j [Hj Hnone]]. cbn [Nat.add] in Hnone.
    exists j. split; [exact Hj|]. split; [|reflexivity].
    apply nth_error_None in Hnone. specialize (Hp j Hj). lia.
Qed.

Lemma ready_next m sel d : ready m -> (sel < que_num m)%nat ->
  nth_error (que m sel) (position m sel) = Some d ->
  ready {| que := que m; position := upd (position m) sel (S (position m sel));
           que_num := que_num m; check := check_update d (check m) |}.
Proof.
  intros [Hn [Hu Hp]] Hs Hd. split; [exact Hn|]. split; [exact Hu|].
  cbn [que_num position que]. intros i Hi. unfold upd. destruct (Nat.eqb_spec i sel) as [->|_]; [|auto].
  assert (position m sel < length (que m sel))%nat by (apply nth_error_Some; congruence). lia.
Qed.

(** ** element facts about labelled lists *)
Lemma from_stream_in {A} i : forall who (l : list A) a x, nth_error l a = Some x -> nth_error who a = Some i ->
  In x (from_stream i who l).
Proof.
  induction who as [|w who IH]; intros l a x Hl Hw; [destruct a; discriminate|].
  destruct l as [|y l]; [destruct a; discriminate|]. cbn [from_stream].
  destruct a as [|a]; cbn in Hl, Hw.
  - injection Hl as ->. injection Hw as ->. rewrite Nat.eqb_refl. now left.
  - destruct (Nat.eqb w i); [right|]; eapply IH; eauto.
Qed.

Lemma sorted_nth l : time_ordered l -> forall p s, nth_error l p = Some s ->
  forall x, In x (skipn p l) -> s_time s <= s_time x.
Proof.
  induction 1 as [|a l Hs IH Ha]; intros p s Hp x Hx; [destruct p; discriminate|].
  destruct p as [|p]; cbn in Hp, Hx.
  - injection Hp as ->. destruct Hx as [<-|Hx]; [apply Qle_refl|].
    rewrite Forall_forall in Ha. auto.
  - eapply IH; eauto.
Qed.

Lemma skipn_nth {A} : forall p (l : list A) s, nth_error l p = Some s -> skipn p l = s :: skipn (S p) l.
Proof.
  induction p as [|p IH]; intros l s H; destruct l as [|a l]; try discriminate.
  - injection H as ->. reflexivity.
  - cbn [skipn]. apply IH. exact H.
Qed.

(** ** the reading loop *)
Definition segment {A} (l : list A) (a b : nat) : list A := firstn (b - a) (skipn a l).

Lemma segment_in {A} (l : list A) a b x : In x (segment l a b) -> In x (skipn a l).
Proof. unfold segment. intro H. rewrite <- (firstn_skipn (b - a) (skipn a l)). apply in_or_app. now left. Qed.

Lemma take_spec : forall n m, ready m ->
  exists l e m' who, take n m = Done (l, e, m') /\ ready m' /\ que m' = que m /\ que_num m' = que_num m /\
    length who = length l /\ Forall (fun w => (w < que_num m)%nat) who /\
    (forall i, (i < que_num m)%nat -> (position m i <= position m' i)%nat /\
       from_stream i who l = segment (que m i) (position m i) (position m' i)) /\
    time_ordered l /\ ties_by_stream who l /\
    (e = true -> exists i, (i < que_num m)%nat /\ position m' i = length (que m i)) /\
    (e = true -> get_next m' = Done (None, m')) /\
    (e = false -> length l = n) /\
    check m' = fold_left (fun c d => check_update d c) l (check m).
Proof.
  induction n as [|n IH]; intros m Hm.
  - exists [], false, m, []. cbn [take]. split; [reflexivity|]. split; [exact Hm|].
    do 3 (split; [reflexivity|]). split; [constructor|].
    split. { intros i Hi. split; [lia|]. unfold segment. rewrite Nat.sub_diag. reflexivity. }
    split; [constructor|]. split. { intros a b x y wx wy _ Hx. destruct a; discriminate. }
    split; [discriminate|]. split; [discriminate|]. split; reflexivity.
  - cbn [take]. destruct (get_next_spec m Hm) as [[i [Hi [Hpi E]]]|[sel [d [Hsel [Hd [Hmin [Hlt E]]]]]]].
    + rewrite E. exists [], true, m, []. split; [reflexivity|]. split; [exact Hm|].
      do 3 (split; [reflexivity|]). split; [constructor|].
      split. { intros j Hj. split; [lia|]. unfold segment. rewrite Nat.sub_diag. reflexivity. }
      split; [constructor|]. split. { intros a b x y wx wy _ Hx. destruct a; discriminate. }
      split; [eauto|]. split; [auto|]. split; [discriminate|reflexivity].
    + rewrite E. set (m1 := {| que := que m; position := upd (position m) sel (S (position m sel));
           que_num := que_num m; check := check_update d (check m) |}).
      pose proof (ready_next m sel d Hm Hsel Hd) as Hm1. fold m1 in Hm1.
      destruct (IH m1 Hm1) as (l & e & m' & who & Et & Hr & Hq & Hqn & Hlen & Hw & Hpos & Hsort & Hties & He & Hen & Hnl & Hck).
      rewrite Et. change (que_num m1) with (que_num m) in *. change (que m1) with (que m) in *.
      assert (Hp1 : forall i, (i < que_num m)%nat ->
        (if Nat.eqb i sel then S (position m i) else position m i) = position m1 i).
      { intros i Hi. cbn [m1 position]. unfold upd. destruct (Nat.eqb_spec i sel) as [->|]; reflexivity. }
      (* every later sample lies in its stream at or behind the head of [m] *)
      assert (Hlater : forall a x i, nth_error l a = Some x -> nth_error who a = Some i ->
          (i < que_num m)%nat /\ In x (skipn (position m1 i) (que m i))).
      { intros a x i Hx Hwi. assert (Hi : (i < que_num m)%nat).
        { rewrite Forall_forall in Hw. apply Hw. eapply nth_error_In; eauto. }
        split; [exact Hi|]. destruct (Hpos i Hi) as [_ Hf].
        apply (segment_in _ _ (position m' i)). rewrite <- Hf. eapply from_stream_in; eauto. }
      assert (Hge : forall a x i, nth_error l a = Some x -> nth_error who a = Some i ->
          (i < que_num m)%nat /\ s_time d <= s_time x /\ (s_time d == s_time x -> (sel <= i)%nat)).
      { intros a x i Hx Hwi. destruct (Hlater a x i Hx Hwi) as [Hi Hin]. split; [exact Hi|].
        destruct (nth_error (que m i) (position m i)) as [s|] eqn:Es.
        2:{ apply nth_error_None in Es. specialize (Hlt i Hi). lia. }
        destruct Hm as [_ [Hu _]]. destruct (Hu i Hi) as [Hso _].
        assert (Hin' : In x (skipn (position m i) (que m i))).
        { rewrite (skipn_nth _ _ _ Es). rewrite <- Hp1 in Hin by exact Hi.
          destruct (Nat.eqb i sel); [now right|]. rewrite (skipn_nth _ _ _ Es) in Hin. exact Hin. }
        pose proof (sorted_nth _ Hso _ _ Es x Hin') as Hsx.
        destruct (Hmin i s Hi Es) as [H1 H2]. split; [eapply Qle_trans; eauto|].
        intro Heq. apply H2. apply Qle_antisym; [rewrite Heq; exact Hsx|exact H1]. }
      assert (Hwho : forall a, (a < length l)%nat -> exists i, nth_error who a = Some i).
      { intros a Ha. destruct (nth_error who a) as [i|] eqn:Ew; [eauto|]. apply nth_error_None in Ew. lia. }
      exists (d :: l), e, m', (sel :: who).
      split; [reflexivity|]. split; [exact Hr|]. split; [exact Hq|]. split; [exact Hqn|].
      split; [cbn; lia|]. split; [constructor; assumption|]. split; [|split; [|split; [|split; [|split; [|split]]]]].
      * intros i Hi. destruct (Hpos i Hi) as [Hle Hf]. rewrite <- Hp1 in Hle, Hf by exact Hi.
        cbn [from_stream]. rewrite (Nat.eqb_sym sel i). destruct (Nat.eqb_spec i sel) as [->|Hne].
        -- split; [lia|]. rewrite Hf. unfold segment.
           replace (position m' sel - position m sel)%nat with (S (position m' sel - S (position m sel))) by lia.
           rewrite (skipn_nth _ _ _ Hd). reflexivity.
        -- split; [lia|]. exact Hf.
      * constructor; [exact Hsort|]. apply Forall_forall. intros x Hx.
        apply In_nth_error in Hx. destruct Hx as [a Ha].
        assert (Hal : (a < length l)%nat) by (apply nth_error_Some; congruence).
        destruct (Hwho a Hal) as [i Hi]. destruct (Hge a x i Ha Hi) as [_ [H _]]. exact H.
      * intros a b x y wx wy Hab Hx Hy Hwx Hwy Heq. destruct b as [|b]; [lia|]. cbn in Hy, Hwy.
        destruct a as [|a]; cbn in Hx, Hwx.
        -- injection Hx as <-. injection Hwx as <-. destruct (Hge b y wy Hy Hwy) as [_ [_ H]]. auto.
        -- eapply (Hties a b); eauto. lia.
      * intro Ht. destruct (He Ht) as [i [Hi Hpi]]. exists i. auto.
      * exact Hen.
      * intro Hf. cbn. rewrite Hnl by exact Hf. reflexivity.
      * cbn [fold_left]. exact Hck.
Qed.
