(** Proofs about the replay of recorded data. *)
From Coq Require Import QArith Qround List Bool ZArith NArith Arith Lia.
From Verif Require Import ReplayModel.
Import ListNotations.
Open Scope nat_scope.

Section Player.
Context {B P : Type} (size : nat) (decode : list B -> raw P).
Notation tick := (tick size decode). 

Lemma read_frame f rest : length f = size ->
  read_raw size decode (RawReader true (f ++ rest)) = (Some (decode f), RawReader true rest).
Proof.
  intros L. unfold read_raw. cbn [rr_ok rr_rest]. rewrite app_length, L.
  destruct (Nat.leb_spec size (size + length rest)); [|lia].
  rewrite firstn_app, skipn_app, L, Nat.sub_diag, firstn_O, app_nil_r, skipn_O, <- L, firstn_all, skipn_all. reflexivity.
Qed.
Lemma read_tail tail : length tail < size -> read_raw size decode (RawReader true tail) = (None, RawReader false []).
Proof. intros L. unfold read_raw. cbn [rr_ok rr_rest]. destruct (Nat.leb_spec size (length tail)); [lia|reflexivity]. Qed.

Lemma stopped_run rt sp : forall ts s, pl_stopped s = true -> fold_left (tick rt sp) ts s = s.
Proof. induction ts as [|t ts IH]; intros s H; [reflexivity|]. cbn [fold_left]. unfold ReplayModel.tick at 2. rewrite H. apply IH, H. Qed.

Definition ended {A} (n m : nat) (x : A) : list A := if (m <? n)%nat then [x] else [].

Lemma late_run rt sp tail : length tail < size -> forall ts late r st el out, (0 < st)%Q -> Forall (fun f => length f = size) late ->
  pl_out (fold_left (tick rt sp) ts (Player (RawReader true (concat late ++ tail)) st (Some r) el false out)) =
  out ++ concat (map publish (firstn (length ts) (r :: map decode late))) ++ ended (length ts) (length late) M_end.
Proof.
  intros T. induction ts as [|t ts IH]; intros late r st el out S F.
  - cbn. rewrite app_nil_r. reflexivity.
  - cbn [fold_left length]. unfold ReplayModel.tick at 2. cbn [pl_stopped pl_start pl_raw pl_elapse pl_out pl_reader].
    assert (E : Qle_bool st 0 = false).
    { destruct (Qle_bool st 0) eqn:E; [|reflexivity]. apply Qle_bool_iff in E. exfalso. exact (Qlt_not_le _ _ S E). }
    rewrite E. destruct late as [|f late].
    + cbn [concat app]. rewrite read_tail by exact T. rewrite stopped_run by reflexivity. cbn [pl_out map firstn concat].
      rewrite firstn_nil. cbn [map concat]. rewrite app_nil_r, <- app_assoc. unfold ended. cbn [length]. reflexivity.
    + pose proof (Forall_inv F) as Lf; pose proof (Forall_inv_tail F) as F'. cbv beta in Lf. cbn [concat]. rewrite <- app_assoc, read_frame by exact Lf.
      rewrite IH by assumption. cbn [map firstn concat]. rewrite <- !app_assoc. reflexivity.
Qed.

Lemma early_run rt sp tail late : length tail < size -> Forall (fun f => length f = size) late ->
  (match late with f :: _ => (0 < rw_time (decode f))%Q | [] => True end) ->
  forall ts early st rw el out, (st <= 0)%Q -> Forall (fun f => length f = size /\ (rw_time (decode f) <= 0)%Q) early ->
  pl_out (fold_left (tick rt sp) ts (Player (RawReader true (concat (early ++ late) ++ tail)) st rw el false out)) =
  out ++ concat (map publish (firstn (length ts - 1 - length early) (map decode late))) ++
  ended (length ts) (length (early ++ late)) M_end.
Proof.
  intros T F H. induction ts as [|t ts IH]; intros early st rw el out Hs E.
  - cbn. rewrite app_nil_r. reflexivity.
  - cbn [fold_left length]. unfold ReplayModel.tick at 2. cbn [pl_stopped pl_start pl_raw pl_elapse pl_out pl_reader].
    apply Qle_bool_iff in Hs as S'. rewrite S'. destruct early as [|f early].
    + cbn [app]. destruct late as [|f late].
      * cbn [concat app]. rewrite read_tail by exact T. rewrite stopped_run by reflexivity.
        cbn [pl_out map length]. rewrite firstn_nil. cbn [map concat app]. unfold ended. reflexivity.
      * pose proof (Forall_inv F) as Lf; pose proof (Forall_inv_tail F) as F'. cbv beta in Lf. cbn [concat]. rewrite <- app_assoc, read_frame by exact Lf.
        rewrite late_run by assumption. cbn [length map]. rewrite Nat.sub_0_r. replace (S (length ts) - 1) with (length ts) by lia.
        reflexivity.
    + destruct (Forall_inv E) as [Lf Tf]; pose proof (Forall_inv_tail E) as E'. cbn [app concat]. rewrite <- app_assoc, read_frame by exact Lf.
      rewrite IH by assumption. cbn [length]. replace (S (length ts) - 1 - S (length early)) with (length ts - 1 - length early) by lia.
      reflexivity.
Qed.

Theorem play_out rt sp early late tail ts : length tail < size ->
  Forall (fun f => length f = size /\ (rw_time (decode f) <= 0)%Q) early -> Forall (fun f => length f = size) late ->
  (match late with f :: _ => (0 < rw_time (decode f))%Q | [] => True end) ->
  pl_out (play size decode rt sp (concat (early ++ late) ++ tail) ts) =
  concat (map publish (firstn (length ts - 1 - length early) (map decode late))) ++
  ended (length ts) (length (early ++ late)) M_end.
Proof.
  intros T E F H. unfold play, player_init. rewrite (early_run rt sp tail late T F H) by (assumption || apply Qle_refl).
  reflexivity.
Qed.
End Player.

(** ** the displayed path *)
Lemma show_path_snoc {A} (l : list (Q * A)) x : show_path (l ++ [x]) = add_pose (show_path l) (fst x) (snd x).
Proof. unfold show_path. rewrite fold_left_app. reflexivity. Qed.
Definition shown {A} (l : list (Q * A)) : list A := map snd (filter (fun r => whole_second (fst r)) l).
Lemma shown_snoc {A} (l : list (Q * A)) x : shown (l ++ [x]) = shown l ++ (if whole_second (fst x) then [snd x] else []).
Proof. unfold shown. rewrite filter_app, map_app. f_equal. cbn [filter]. destruct (whole_second (fst x)); reflexivity. Qed.

Definition count {A} (l : list A) : N := N.of_nat (length l).
Lemma count_snoc {A} (l : list A) x : count (l ++ [x]) = (count l + 1)%N.
Proof. unfold count. rewrite app_length. cbn [length]. lia. Qed.
Lemma path_suffix {A} (l : list (Q * A)) : exists k : N, (count (shown l) = k * (path_limit + 1) + count (show_path l) /\
  count (show_path l) <= path_limit)%N /\ show_path l = skipn (N.to_nat (k * (path_limit + 1))) (shown l).
Proof.
  induction l as [|x l (k & (L & M) & E)] using rev_ind; [exists 0%N; repeat split; cbn; lia|].
  rewrite show_path_snoc, shown_snoc. unfold add_pose. destruct (whole_second (fst x)); cbv zeta.
  - pose proof (count_snoc (show_path l) (snd x)) as C. unfold count in C at 1.
    destruct (path_limit <? N.of_nat (length (show_path l ++ [snd x])))%N eqn:G; rewrite C in G.
    + apply N.ltb_lt in G. exists (k + 1)%N. rewrite count_snoc. change (count (@nil A)) with 0%N. split; [split; [rewrite L; nia|lia]|].
      rewrite skipn_all2; [reflexivity|]. rewrite app_length. cbn [length]. unfold count in *. lia.
    + apply N.ltb_ge in G. exists k. rewrite !count_snoc. split; [split; lia|].
      rewrite skipn_app, <- E. f_equal. replace (N.to_nat (k * (path_limit + 1)) - length (shown l)) with 0 by (unfold count in *; lia). reflexivity.
  - exists k. rewrite app_nil_r. auto.
Qed.

(** ** the fusion node *)
Section Node.
Context {P : Type}.
Lemma node_none es : fold_left node_step es (None : option (node P)) = None.
Proof. induction es; [reflexivity|exact IHes]. Qed.

Lemma push_nonempty {A} cap (q : list A) x : 0 < cap -> push cap q x <> [].
Proof.
  intros C. unfold push. destruct (Nat.ltb_spec cap (length (q ++ [x]))) as [H|H]; [|destruct q; discriminate].
  destruct q as [|a q]; [cbn in H; lia|]. cbn. destruct q; discriminate.
Qed.

Definition no_fix (c : call P) : Prop := match c with C_pos _ _ => False | _ => True end.

Lemma node_fixes : forall es (s s' : node P), Forall no_fix (nd_calls s) -> node_run s es = Some s' -> Forall no_fix (nd_calls s').
Proof.
  unfold node_run. induction es as [|e es IH]; intros s s' F H; cbn [fold_left] in H; [injection H as <-; exact F|].
  destruct e as [t x|t x|t x|]; cbn [node_step] in H; try (eapply IH; [|exact H]; exact F).
  destruct (nd_gnss s) as [|g q] eqn:G; [rewrite node_none in H; discriminate|].
  eapply IH; [|exact H]. cbn [nd_calls].
  apply Forall_app; split; [exact F|]. apply Forall_app; split.
  - destruct (nd_vel s) as [|[? ?] ?]; repeat constructor.
  - destruct (nd_imu s) as [|[? ?] ?]; repeat constructor.
Qed.

(** a fix arrives before the first round of the loop *)
Fixpoint fix_first (es : list (event P)) : bool :=
  match es with
  | [] => true
  | E_gnss _ _ :: _ => true
  | E_loop :: _ => false
  | _ :: r => fix_first r
  end.
Lemma node_stays : forall es (s : node P), nd_gnss s <> [] -> exists s', node_run s es = Some s'.
Proof.
  unfold node_run. induction es as [|e es IH]; intros s N; [eexists; reflexivity|]. cbn [fold_left].
  destruct e as [t x|t x|t x|]; cbn [node_step]; try (apply IH; cbn [nd_gnss]; assumption).
  - apply IH. cbn [nd_gnss]. apply push_nonempty. unfold gnss_capacity. lia.
  - destruct (nd_gnss s) as [|g q] eqn:G; [congruence|]. apply IH. cbn [nd_gnss]. congruence.
Qed.
Lemma node_defined : forall es (s : node P), nd_gnss s = [] ->
  (exists s', node_run s es = Some s') <-> fix_first es = true.
Proof.
  induction es as [|e es IH]; intros s N; [split; [reflexivity|intros _; eexists; reflexivity]|].
  destruct e as [t x|t x|t x|]; cbn [fix_first].
  - change (node_run s (E_imu t x :: es)) with (node_run (Node (push imu_capacity (nd_imu s) ((t - 1)%Q, x)) (nd_gnss s) (nd_vel s) (nd_calls s)) es).
    apply IH, N.
  - split; [reflexivity|]. intros _.
    change (node_run s (E_gnss t x :: es)) with (node_run (Node (nd_imu s) (push gnss_capacity (nd_gnss s) (t, x)) (nd_vel s) (nd_calls s)) es).
    apply node_stays. cbn [nd_gnss]. apply push_nonempty. unfold gnss_capacity. lia.
  - change (node_run s (E_vel t x :: es)) with (node_run (Node (nd_imu s) (nd_gnss s) (push vel_capacity (nd_vel s) (t, x)) (nd_calls s)) es).
    apply IH, N.
  - split; [|discriminate]. intros (s' & H). unfold node_run in H. cbn [fold_left node_step] in H. rewrite N in H.
    rewrite node_none in H. discriminate.
Qed.

(** the samples that arrived, in order, and those handed over *)
Fixpoint arrived (es : list (event P)) : list (Q * P) :=
  match es with [] => [] | E_imu t x :: r => (t, x) :: arrived r | _ :: r => arrived r end.
Fixpoint handed (cs : list (call P)) : list (Q * P) :=
  match cs with [] => [] | C_imu t x :: r => (t, x) :: handed r | _ :: r => handed r end.
Lemma handed_app a b : handed (a ++ b) = handed a ++ handed b.
Proof. induction a as [|[t x|t x|t x] a IH]; cbn [app handed]; [reflexivity|exact IH..|]. rewrite IH. reflexivity. Qed.
Definition earlier (x : Q * P) : Q * P := ((fst x - 1)%Q, snd x).

(** at most [k] samples wait when one arrives: [backlog w es] with [w] waiting at the start *)
Fixpoint fits (w : nat) (es : list (event P)) : Prop :=
  match es with
  | [] => True
  | E_imu _ _ :: r => w < 10 /\ fits (S w) r
  | E_loop :: r => fits (w - 1) r
  | _ :: r => fits w r
  end.
Inductive sub {A} : list A -> list A -> Prop :=
| sub_nil : sub [] []
| sub_skip x l m : sub l m -> sub l (x :: m)
| sub_take x l m : sub l m -> sub (x :: l) (x :: m).

Lemma sub_refl {A} (l : list A) : sub l l. Proof. induction l; constructor; assumption. Qed.
Lemma sub_app {A} (a b c d : list A) : sub a b -> sub c d -> sub (a ++ c) (b ++ d).
Proof. induction 1; cbn; intros; [assumption|constructor 2|constructor 3]; auto. Qed.
Lemma sub_trans {A} : forall (b c : list A), sub b c -> forall a, sub a b -> sub a c.
Proof.
  induction 1 as [|x l m H IH|x l m H IH]; intros a S.
  - exact S.
  - constructor. apply IH, S.
  - inversion S; subst; [constructor; apply IH; assumption|constructor 3; apply IH; assumption].
Qed.
Lemma sub_tl {A} (l : list A) : sub (tl l) l.
Proof. destruct l; cbn; [constructor|constructor; apply sub_refl]. Qed.
Lemma push_sub {A} cap (q : list A) x : sub (push cap q x) (q ++ [x]).
Proof. unfold push. destruct (cap <? length (q ++ [x])); [apply sub_tl|apply sub_refl]. Qed.

Lemma node_order : forall es (s s' : node P), node_run s es = Some s' ->
  sub (handed (nd_calls s') ++ nd_imu s') (handed (nd_calls s) ++ nd_imu s ++ map earlier (arrived es)).
Proof.
  unfold node_run. induction es as [|e es IH]; intros s s' H; cbn [fold_left] in H.
  - injection H as <-. cbn [arrived map]. rewrite app_nil_r. apply sub_refl.
  - destruct e as [t x|t x|t x|]; cbn [node_step] in H; cbn [arrived map].
    + apply IH in H. cbn [nd_calls nd_imu] in H. eapply sub_trans; [|exact H].
      apply sub_app; [apply sub_refl|]. change (earlier (t, x)) with ((t - 1)%Q, x).
      replace (nd_imu s ++ ((t - 1)%Q, x) :: map earlier (arrived es)) with ((nd_imu s ++ [((t - 1)%Q, x)]) ++ map earlier (arrived es)) by (rewrite <- app_assoc; reflexivity).
      apply sub_app; [apply push_sub|apply sub_refl].
    + exact (IH _ _ H).
    + exact (IH _ _ H).
    + destruct (nd_gnss s) as [|g q] eqn:G; [rewrite node_none in H; discriminate|].
      apply IH in H. cbn [nd_calls nd_imu] in H. rewrite !handed_app in H.
      eapply sub_trans; [|exact H]. rewrite <- app_assoc. apply sub_app; [apply sub_refl|].
      replace (handed (match nd_vel s with (t, x) :: _ => [C_vel t x] | [] => [] end)) with (@nil (Q * P))
        by (destruct (nd_vel s) as [|[? ?] ?]; reflexivity).
      cbn [app]. destruct (nd_imu s) as [|[t x] q']; cbn [tl handed app]; apply sub_refl.
Qed.
Lemma node_complete : forall es (s s' : node P), node_run s es = Some s' -> fits (length (nd_imu s)) es ->
  handed (nd_calls s') ++ nd_imu s' = handed (nd_calls s) ++ nd_imu s ++ map earlier (arrived es).
Proof.
  unfold node_run. induction es as [|e es IH]; intros s s' H F; cbn [fold_left] in H.
  - injection H as <-. cbn [arrived map]. rewrite app_nil_r. reflexivity.
  - destruct e as [t x|t x|t x|]; cbn [node_step] in H; cbn [arrived map fits] in *.
    + destruct F as [F1 F2].
      assert (E : push imu_capacity (nd_imu s) ((t - 1)%Q, x) = nd_imu s ++ [((t - 1)%Q, x)]).
      { unfold push, imu_capacity. destruct (Nat.ltb_spec 10 (length (nd_imu s ++ [((t - 1)%Q, x)]))) as [G|G]; [|reflexivity].
        rewrite app_length in G. cbn in G. lia. }
      rewrite E in H. apply IH in H; cbn [nd_calls nd_imu] in *.
      * rewrite H, <- app_assoc. reflexivity.
      * rewrite app_length. cbn [length]. rewrite Nat.add_1_r. exact F2.
    + exact (IH _ _ H F).
    + exact (IH _ _ H F).
    + destruct (nd_gnss s) as [|g q] eqn:G; [rewrite node_none in H; discriminate|].
      apply IH in H; cbn [nd_calls nd_imu] in *.
      * rewrite H, !handed_app, <- !app_assoc. f_equal.
        replace (handed (match nd_vel s with (t, x) :: _ => [C_vel t x] | [] => [] end)) with (@nil (Q * P))
          by (destruct (nd_vel s) as [|[? ?] ?]; reflexivity).
        destruct (nd_imu s) as [|[t x] q']; reflexivity.
      * replace (length (tl (nd_imu s))) with (length (nd_imu s) - 1); [exact F|]. destruct (nd_imu s); cbn; lia.
Qed.
End Node.
