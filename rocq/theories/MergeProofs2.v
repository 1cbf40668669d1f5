(** Loss at the end of a stream, MoveToTime, progress, time statistics. *)
From Coq Require Import QArith Qfield List Arith Bool Lia Sorted.
From Verif Require Import MergeModel MergeSpec MergeProofs.
Import ListNotations.

Lemma built_que g imu gnss i : (i < que_num (built g imu gnss))%nat -> que (built g imu gnss) i = streams imu gnss i.
Proof.
  destruct g; cbn; unfold upd; intro H; destruct i as [|[|i]]; cbn; auto; lia.
Qed.
Lemma built_num g imu gnss : que_num (built g imu gnss) = if g then 2%nat else 1%nat.
Proof. destruct g; reflexivity. Qed.
Lemma built_pos g imu gnss i : position (built g imu gnss) i = 0%nat.
Proof. destruct g; reflexivity. Qed.

Lemma built_ready (g : bool) imu gnss : usable (if g then 2%nat else 1%nat) (streams imu gnss) -> ready (built g imu gnss).
Proof.
  intro H. split; [rewrite built_num; destruct g; lia|]. split.
  - intros i Hi. rewrite built_que by exact Hi. apply H. rewrite built_num in Hi. exact Hi.
  - intros i Hi. rewrite built_pos. lia.
Qed.

Lemma interleave_of_take m who l m' : ready m -> ready m' -> que m' = que m -> que_num m' = que_num m ->
  (forall i, position m i = 0%nat) -> length who = length l -> Forall (fun w => (w < que_num m)%nat) who ->
  (forall i, (i < que_num m)%nat -> (position m i <= position m' i)%nat /\
       from_stream i who l = segment (que m i) (position m i) (position m' i)) ->
  interleaves (que_num m) (que m) (position m') who l.
Proof.
  intros Hm Hm' Hq Hn H0 Hl Hw Hf. split; [exact Hl|]. split; [exact Hw|].
  intros i Hi. destruct (Hf i Hi) as [_ Hs]. split.
  - rewrite Hs, H0. unfold segment. rewrite Nat.sub_0_r. reflexivity.
  - destruct Hm' as [_ [_ Hp]]. rewrite <- Hq. apply Hp. rewrite Hn. exact Hi.
Qed.

Lemma interleaves_ext n q q' cnt who l : (forall i, (i < n)%nat -> q i = q' i) ->
  interleaves n q cnt who l -> interleaves n q' cnt who l.
Proof.
  intros H [H1 [H2 H3]]. split; [exact H1|]. split; [exact H2|]. intros i Hi. rewrite <- H by exact Hi. auto.
Qed.

Lemma merge_all (g : bool) imu gnss n : usable (if g then 2%nat else 1%nat) (streams imu gnss) ->
  exists l e m' who, take n (built g imu gnss) = Done (l, e, m') /\
    interleaves (if g then 2%nat else 1%nat) (streams imu gnss) (position m') who l /\
    time_ordered l /\ ties_by_stream who l /\
    (e = true -> exists i, (i < if g then 2 else 1)%nat /\ position m' i = length (streams imu gnss i)) /\
    (e = false -> length l = n).
Proof.
  intro Hu. pose proof (built_ready g imu gnss Hu) as Hr.
  destruct (take_spec n _ Hr) as (l & e & m' & who & Et & Hr' & Hq & Hqn & Hlen & Hw & Hpos & Hsort & Hties & He & _ & Hnl & _).
  exists l, e, m', who. split; [exact Et|]. split.
  - pose proof (interleave_of_take _ _ _ _ Hr Hr' Hq Hqn (built_pos g imu gnss) Hlen Hw Hpos) as Hi.
    rewrite built_num in Hi. eapply interleaves_ext; [|exact Hi].
    intros i Hlt. apply built_que. rewrite built_num. exact Hlt.
  - split; [exact Hsort|]. split; [exact Hties|]. split; [|exact Hnl].
    intro Ht. destruct (He Ht) as [i [Hi Hp]]. rewrite built_num in Hi. exists i. split; [exact Hi|].
    rewrite Hp. f_equal. apply built_que. rewrite built_num. exact Hi.
Qed.

(** counting labels: the length of an interleaving is the sum of the parts *)
Lemma from_stream_length2 {A} : forall who (l : list A), length who = length l ->
  Forall (fun w => (w < 2)%nat) who ->
  length l = (length (from_stream 0 who l) + length (from_stream 1 who l))%nat.
Proof.
  induction who as [|w who IH]; intros l Hl Hw; destruct l as [|x l]; try discriminate; [reflexivity|].
  inversion Hw as [|? ? H1 H2]; subst. cbn [from_stream length].
  rewrite (IH l) by (auto; cbn in Hl; lia). destruct w as [|[|w]]; [| |lia]; cbn; lia.
Qed.
Lemma from_stream_all {A} : forall who (l : list A), length who = length l ->
  Forall (fun w => (w < 1)%nat) who -> from_stream 0 who l = l.
Proof.
  induction who as [|w who IH]; intros l Hl Hw; destruct l as [|x l]; try discriminate; [reflexivity|].
  inversion Hw as [|? ? H1 H2]; subst. destruct w; [|lia]. cbn [from_stream Nat.eqb]. f_equal. apply IH; auto.
Qed.

(** the loop ends: after more turns than there are samples the end has been reported *)
Lemma merge_ends (g : bool) imu gnss n l e m' : usable (if g then 2%nat else 1%nat) (streams imu gnss) ->
  (length imu + length gnss < n)%nat -> take n (built g imu gnss) = Done (l, e, m') -> e = true.
Proof.
  intros Hu Hn Ht. destruct (merge_all g imu gnss n Hu) as (l' & e' & m'' & who & Et & Hi & _ & _ & _ & Hf).
  rewrite Et in Ht. injection Ht as <- <- <-. destruct e'; [reflexivity|]. exfalso.
  specialize (Hf eq_refl). destruct Hi as [H1 [H2 H3]]. destruct g.
  - rewrite (from_stream_length2 who l') in Hf by assumption.
    destruct (H3 0%nat ltac:(lia)) as [E0 L0]. destruct (H3 1%nat ltac:(lia)) as [E1 L1].
    rewrite E0, E1, !firstn_length in Hf. cbn [streams] in *. lia.
  - destruct (H3 0%nat ltac:(lia)) as [E0 L0]. rewrite (from_stream_all who l') in E0 by assumption.
    rewrite E0, firstn_length in Hf. cbn [streams] in *. lia.
Qed.

(** with the IMU stream alone everything is delivered *)
Lemma imu_only_complete imu gnss n : usable 1 (streams imu gnss) -> (length imu < n)%nat ->
  exists m', take n (built false imu gnss) = Done (imu, true, m').
Proof.
  intros Hu Hn. destruct (merge_all false imu [] n) as (l & e & m' & who & Et & Hi & _ & _ & He & Hf).
  { intros i Hi. specialize (Hu i Hi). destruct i; [exact Hu|lia]. }
  assert (built false imu [] = built false imu gnss) as Eb by reflexivity. rewrite Eb in Et.
  destruct Hi as [H1 [H2 H3]]. destruct (H3 0%nat ltac:(lia)) as [E0 L0].
  rewrite (from_stream_all who l) in E0 by assumption. cbn [streams] in *.
  destruct e.
  - destruct (He eq_refl) as [i [Hi Hp]]. destruct i; [|lia]. rewrite Hp in E0. cbn [streams] in E0.
    rewrite firstn_all in E0. subst l. exists m'. exact Et.
  - exfalso. specialize (Hf eq_refl). rewrite E0, firstn_length in Hf. lia.
Qed.

(** nothing later than the end of any stream is ever delivered *)
Lemma sorted_last l : time_ordered l -> forall z, nth_error l (length l - 1) = Some z ->
  forall x, In x l -> s_time x <= s_time z.
Proof.
  induction 1 as [|a l Hs IH Ha]; intros z Hz x Hx; [destruct Hx|].
  rewrite Forall_forall in Ha. destruct l as [|b l].
  - cbn in Hz. injection Hz as ->. destruct Hx as [<-|[]]. apply Qle_refl.
  - assert (Hz' : nth_error (b :: l) (length (b :: l) - 1) = Some z).
    { replace (length (a :: b :: l) - 1)%nat with (S (length (b :: l) - 1)) in Hz by (cbn [length]; lia). exact Hz. }
    destruct Hx as [<-|Hx]; [|exact (IH z Hz' x Hx)]. apply Ha. eapply nth_error_In. exact Hz'.
Qed.

Lemma take_bounded : forall n m l e m', ready m -> take n m = Done (l, e, m') ->
  forall x, In x l -> forall i z, (i < que_num m)%nat ->
    nth_error (que m i) (length (que m i) - 1) = Some z -> s_time x <= s_time z.
Proof.
  induction n as [|n IH]; intros m l e m' Hm Ht x Hx i z Hi Hz.
  - cbn in Ht. injection Ht as <- _ _. destruct Hx.
  - cbn [take] in Ht. destruct (get_next_spec m Hm) as [[j [Hj [Hpj E]]]|[sel [d [Hsel [Hd [Hmin [Hlt E]]]]]]];
      rewrite E in Ht.
    + injection Ht as <- _ _. destruct Hx.
    + pose proof (ready_next m sel d Hm Hsel Hd) as Hm1.
      destruct (take n _) as [[[l1 e1] m1]|] eqn:Et; [|discriminate]. injection Ht as <- _ _.
      destruct Hx as [<-|Hx].
      * destruct (nth_error (que m i) (position m i)) as [s|] eqn:Es.
        2:{ apply nth_error_None in Es. specialize (Hlt i Hi). lia. }
        eapply Qle_trans; [apply (Hmin i s Hi Es)|].
        destruct Hm as [_ [Hu _]]. destruct (Hu i Hi) as [Hso _].
        eapply sorted_last; eauto. eapply nth_error_In. exact Es.
      * eapply (IH _ _ _ _ Hm1 Et x Hx i z); auto.
Qed.

Lemma tail_lost imu gnss n l e m' z : usable 2 (streams imu gnss) ->
  nth_error gnss (length gnss - 1) = Some z -> take n (built true imu gnss) = Done (l, e, m') ->
  forall x, In x imu -> s_time z < s_time x -> ~ In x l.
Proof.
  intros Hu Hz Ht x Hx Hlt Hin.
  pose proof (take_bounded n _ l e m' (built_ready true imu gnss Hu) Ht x Hin 1%nat z) as H.
  cbn [built_num] in H. rewrite built_que in H by (cbn; lia). 
  specialize (H ltac:(cbn; lia) Hz). exact (Qlt_not_le _ _ Hlt H).
Qed.

(** ** MoveToTime *)
Lemma move_spec : forall k target m m', move_to_time k target m = Some (Done m') ->
  (exists n l, take n m = Done (l, true, m') /\ Forall (fun s => s_time s < target) l) \/
  (exists n l d, take n m = Done (l ++ [d], false, m') /\ Forall (fun s => s_time s < target) l /\
     target <= s_time d).
Proof.
  induction k as [|k IH]; intros target m m' H; [discriminate|]. cbn [move_to_time] in H.
  destruct (get_next m) as [[[d|] m1]|] eqn:E; [| |discriminate].
  - destruct (Qltb (s_time d) target) eqn:El.
    + apply Qltb_lt in El. destruct (IH _ _ _ H) as [[n [l [Ht Hf]]]|[n [l [d' [Ht [Hf Hd]]]]]].
      * left. exists (S n), (d :: l). cbn [take]. rewrite E, Ht. split; [reflexivity|]. constructor; auto.
      * right. exists (S n), (d :: l), d'. cbn [take]. rewrite E, Ht. split; [reflexivity|].
        split; [constructor; auto|exact Hd].
    + injection H as <-. apply Qltb_ge in El. right. exists 1%nat, [], d. cbn [take app]. rewrite E.
      split; [reflexivity|]. split; [constructor|exact El].
  - injection H as <-. left. exists 1%nat, []. cbn [take]. rewrite E. split; [reflexivity|constructor].
Qed.

(** ** GetProgress *)
Lemma progress_spec m p : get_progress m = Done p -> (position m imu_que_id <= length (que m imu_que_id))%nat ->
  (p <= 100)%nat /\ (p = 100%nat <-> position m imu_que_id = length (que m imu_que_id)).
Proof.
  unfold get_progress. destruct (length (que m imu_que_id)) as [|k] eqn:E; [discriminate|].
  intros H Hle. injection H as H. assert (Hp : p = (100 * position m imu_que_id / S k)%nat) by (rewrite <- H; reflexivity).
  clear H. set (q := position m imu_que_id) in *. split.
  - rewrite Hp. apply Nat.div_le_upper_bound; lia.
  - split; intro H.
    + rewrite Hp in H. pose proof (Nat.div_mod (100 * q) (S k) ltac:(lia)) as D.
      rewrite H in D. pose proof (Nat.mod_upper_bound (100 * q) (S k) ltac:(lia)). nia.
    + rewrite Hp, H. replace (100 * S k)%nat with (100 * S k)%nat by lia. apply Nat.div_mul. lia.
Qed.

(** ** time statistics *)
Lemma check_cnt l : forall c, data_cnt (fold_left (fun c d => check_update d c) l c) = (data_cnt c + length l)%nat.
Proof. induction l as [|d l IH]; intro c; cbn [fold_left length]; [lia|]. rewrite IH. cbn. lia. Qed.

(** running statistics after at least one positive time: average * count and maximum *)
Lemma check_run : forall l c, 0 < last_time c -> (0 < data_cnt c)%nat -> Forall (fun s => 0 < s_time s) l ->
  let c' := fold_left (fun c d => check_update d c) l c in
  average_delta_time c' * inject_Z (Z.of_nat (data_cnt c')) ==
    average_delta_time c * inject_Z (Z.of_nat (data_cnt c)) + Qsum (gaps_from (last_time c) l) /\
  (forall g, In g (gaps_from (last_time c) l) -> g <= max_delta_time c') /\
  max_delta_time c <= max_delta_time c' /\
  (max_delta_time c' = max_delta_time c \/ In (max_delta_time c') (gaps_from (last_time c) l)).
Proof.
  induction l as [|d l IH]; intros c Hl Hc Hf; cbv zeta; cbn [fold_left gaps_from Qsum].
  - split; [ring|]. split; [intros g []|]. split; [apply Qle_refl|]. left. reflexivity.
  - inversion Hf as [|? ? Hd Hr]; subst.
    assert (E : delta_time (check_update d c) = s_time d - last_time c).
    { cbn [check_update delta_time]. destruct (Qltb 0 (last_time c)) eqn:B; [reflexivity|].
      apply Qltb_ge in B. exfalso. exact (Qlt_not_le _ _ Hl B). }
    assert (Em : max_delta_time (check_update d c) =
      if Qltb (max_delta_time c) (s_time d - last_time c) then s_time d - last_time c else max_delta_time c).
    { rewrite <- E. reflexivity. }
    assert (Ea : average_delta_time (check_update d c) * inject_Z (Z.of_nat (data_cnt (check_update d c))) ==
        average_delta_time c * inject_Z (Z.of_nat (data_cnt c)) + (s_time d - last_time c)).
    { rewrite <- E. cbn [check_update average_delta_time data_cnt delta_time]. replace (S (data_cnt c) - 1)%nat with (data_cnt c) by lia.
      field. intro X. unfold Qeq in X. cbn in X. lia. }
    destruct (IH (check_update d c)) as [H1 [H2 [H3 H4]]]; [exact Hd|cbn; lia|exact Hr|].
    change (last_time (check_update d c)) with (s_time d) in *.
    rewrite Em in H3, H4. split; [rewrite H1, Ea; ring|]. 
    destruct (Qltb (max_delta_time c) (s_time d - last_time c)) eqn:B.
    + apply Qltb_lt in B. split; [|split].
      * intros g [<-|Hg]; auto.
      * eapply Qle_trans; [apply Qlt_le_weak; exact B|exact H3].
      * right. destruct H4 as [->|H4]; [left; reflexivity|right; exact H4].
    + apply Qltb_ge in B. split; [|split].
      * intros g [<-|Hg]; auto. eapply Qle_trans; eauto.
      * exact H3.
      * destruct H4 as [H4|H4]; [left; exact H4|right; right; exact H4].
Qed.

Lemma gaps_sum : forall l t, Qsum (gaps_from t l) == match rev l with [] => 0 | z :: _ => s_time z - t end.
Proof.
  induction l as [|d l IH]; intro t; cbn [gaps_from Qsum]; [reflexivity|].
  rewrite IH. cbn [rev]. destruct (rev l) as [|z r]; cbn [app]; ring.
Qed.

Lemma check_stats d l : Forall (fun s => 0 < s_time s) (d :: l) ->
  let c := fold_left (fun c d => check_update d c) (d :: l) new_checker in
  data_cnt c = S (length l) /\
  average_delta_time c == (s_time (last l d) - s_time d) / inject_Z (Z.of_nat (S (length l))) /\
  (forall g, In g (gaps (d :: l)) -> g <= max_delta_time c) /\
  (0 <= max_delta_time c) /\ (max_delta_time c = 0 \/ In (max_delta_time c) (gaps (d :: l))).
Proof.
  intro Hf. inversion Hf as [|? ? Hd Hr]; subst. cbv zeta. cbn [fold_left].
  destruct (check_run l (check_update d new_checker) Hd ltac:(cbn; lia) Hr) as [H1 [H2 [H3 H4]]].
  set (c' := fold_left _ l _) in *.
  assert (Ec : data_cnt c' = S (length l)) by (unfold c'; rewrite check_cnt; reflexivity).
  split; [exact Ec|]. 
  assert (Hn : ~ inject_Z (Z.of_nat (S (length l))) == 0) by (intro X; unfold Qeq in X; cbn in X; lia).
  split; [|split; [|split]].
  - rewrite Ec in H1. rewrite gaps_sum in H1. change (last_time (check_update d new_checker)) with (s_time d) in H1.
    assert (E0 : average_delta_time (check_update d new_checker) == 0) by reflexivity.
    assert (Hl : match rev l with [] => 0 | z :: _ => s_time z - s_time d end == s_time (last l d) - s_time d).
    { destruct (rev l) as [|z r] eqn:Er.
      - assert (l = []) as -> by (rewrite <- (rev_involutive l), Er; reflexivity). cbn. ring.
      - assert (l = rev r ++ [z]) as -> by (rewrite <- (rev_involutive l), Er; reflexivity).
        rewrite last_last. reflexivity. }
    rewrite Hl, E0 in H1. setoid_replace (0 * inject_Z (Z.of_nat (data_cnt (check_update d new_checker))) +
      (s_time (last l d) - s_time d)) with (s_time (last l d) - s_time d) in H1 by ring.
    rewrite <- H1. field. exact Hn.
  - intros g [<-|Hg]; [exact H3|exact (H2 g Hg)].
  - exact H3.
  - destruct H4 as [H4|H4]; [left; exact H4|right; right; exact H4].
Qed.

(** progress while reading *)
Lemma progress_run (g : bool) imu gnss n l e m' : usable (if g then 2%nat else 1%nat) (streams imu gnss) ->
  imu <> [] -> take n (built g imu gnss) = Done (l, e, m') ->
  exists who p, interleaves (if g then 2%nat else 1%nat) (streams imu gnss) (position m') who l /\
    get_progress m' = Done p /\
    p = (100 * length (from_stream 0 who l) / length imu)%nat /\ (p <= 100)%nat /\
    (p = 100%nat <-> from_stream 0 who l = imu).
Proof.
  intros U Hne T. destruct (take_spec n (built g imu gnss) (built_ready g imu gnss U))
    as (l1 & e1 & m1 & who & T1 & R1 & Q1 & N1 & HL & HF & HS & _).
  rewrite T in T1. injection T1 as -> -> ->.
  assert (I : interleaves (que_num (built g imu gnss)) (que (built g imu gnss)) (position m1) who l1)
    by (apply (interleave_of_take (built g imu gnss)); auto using built_ready, built_pos).
  rewrite built_num in I.
  assert (I' : interleaves (if g then 2%nat else 1%nat) (streams imu gnss) (position m1) who l1).
  { revert I. apply interleaves_ext. intros i Hi. apply built_que. now rewrite built_num. }
  assert (Z : (0 < if g then 2 else 1)%nat) by (destruct g; lia).
  destruct (proj2 (proj2 I') 0%nat Z) as [E0 B0]. cbn [streams] in E0, B0.
  assert (QI : que m1 imu_que_id = imu).
  { rewrite Q1. unfold imu_que_id. rewrite built_que by (rewrite built_num; exact Z). reflexivity. }
  assert (GP : exists p, get_progress m1 = Done p).
  { unfold get_progress. rewrite QI. destruct imu; [congruence|]. eexists. reflexivity. }
  destruct GP as [p GP]. exists who, p. split; [exact I'|]. split; [exact GP|].
  assert (L : length (from_stream 0 who l1) = position m1 imu_que_id).
  { rewrite E0, firstn_length. unfold imu_que_id. lia. }
  pose proof (progress_spec m1 p GP) as PS. rewrite QI in PS. specialize (PS B0). destruct PS as [P1 P2].
  split.
  - unfold get_progress in GP. rewrite QI in GP. rewrite L. destruct imu; [congruence|].
    injection GP as <-. reflexivity.
  - split; [exact P1|]. rewrite P2, E0. unfold imu_que_id. split; intro H.
    + rewrite H. apply firstn_all.
    + apply (f_equal (@length _)) in H. rewrite firstn_length in H. lia.
Qed.
