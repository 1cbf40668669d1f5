(** Proofs about the helper functions of App/AppCommon. *)
From Coq Require Import QArith Qabs List String Ascii Bool ZArith NArith Lia.
From Verif Require Import ConfigModel ConfigSpec TextModel TextSpec TextProofs TextProofsG TextMain HelperModel.
Import ListNotations.
Open Scope list_scope.

(** ** reading up to a time *)
Section Until.
Context {P : Type}.
Lemma seek_some gpst : forall (l : list (entry P)) e r, seek gpst l = Some (e, r) ->
  exists before, l = before ++ e :: r /\ Forall (fun x => (e_time x < gpst)%Q) before /\ (gpst <= e_time e)%Q.
Proof.
  induction l as [|x l IH]; intros e r H; cbn [seek] in H; [discriminate|].
  destruct (Qle_bool gpst (e_time x)) eqn:E; cbn [negb] in H.
  - injection H as <- <-. exists []. split; [reflexivity|]. split; [constructor|]. apply Qle_bool_iff, E.
  - destruct (IH e r H) as (b & -> & F & G). exists (x :: b). split; [reflexivity|]. split; [|exact G].
    constructor; [|exact F]. apply Qnot_le_lt. intros C. apply Qle_bool_iff in C. congruence.
Qed.
Lemma seek_none gpst : forall (l : list (entry P)), seek gpst l = None <-> Forall (fun x => (e_time x < gpst)%Q) l.
Proof.
  induction l as [|x l IH]; cbn [seek]; [split; [constructor|reflexivity]|].
  destruct (Qle_bool gpst (e_time x)) eqn:E; cbn [negb].
  - split; [discriminate|]. intros F. inversion F as [|? ? A _]; subst. apply Qle_bool_iff in E. exfalso. apply (Qlt_not_le _ _ A E).
  - rewrite IH. split; intros F; [constructor; [|exact F]|inversion F; assumption].
    apply Qnot_le_lt. intros C. apply Qle_bool_iff in C. congruence.
Qed.
End Until.

(** ** printed sensor data *)
Definition told (ks : list Z) (xs : list num) (row : list Q) : Prop :=
  Forall2 (fun kx q => decimals (fst kx) (num_value (snd kx)) q) (combine ks xs) row.

Definition triple_list (v : triple) : list num := let '(x, y, z) := v in [x; y; z].

Lemma fixed_told k x : finite x -> exists q, read_number (print_fixed k x) = Some q /\ decimals (Z.of_nat k) (num_value x) q.
Proof. destruct x as [s n d| |]; [|intros []..]. intros _. apply fixed_near. Qed.

(** words of numbers printed with [k] decimals and some width *)
Fixpoint line (l : list (nat * nat * num)) : text :=
  match l with
  | [] => []
  | [(w, k, x)] => pad w (print_fixed k x)
  | (w, k, x) :: r => pad w (print_fixed k x) ++ " "%char :: line r
  end.
Lemma line_words : forall l, text_words (line l) = map (fun '(w, k, x) => print_fixed k x) l.
Proof.
  unfold text_words. change (fun w : chars => match w with [] => false | _ :: _ => true end) with nonempty.
  induction l as [|[[w k] x] l IH]; [reflexivity|].
  destruct l as [|b l].
  - cbn [line map]. rewrite words_pad by (first [apply blank_not|idtac]; apply plain_fixed). reflexivity.
  - change (line ((w, k, x) :: b :: l)) with (pad w (print_fixed k x) ++ " "%char :: line (b :: l)).
    rewrite words_pad_cons by (first [apply blank_not|idtac]; apply plain_fixed).
    change (map _ ((w, k, x) :: b :: l)) with (print_fixed k x :: map (fun '(w, k, x) => print_fixed k x) (b :: l)).
    f_equal. exact IH.
Qed.
Lemma line_numbers : forall l, Forall (fun '(w, k, x) => finite x) l ->
  exists row, numbers (line l) = Some row /\
    told (map (fun '(w, k, x) => Z.of_nat k) l) (map (fun '(w, k, x) => x) l) row.
Proof.
  intros l F. unfold numbers. rewrite line_words. induction F as [|[[w k] x] l Hx F (row & E & G)].
  - exists []. split; [reflexivity|constructor].
  - destruct (fixed_told k x Hx) as (q & R & D). exists (q :: row). split; [|constructor; assumption].
    cbn [map all_some]. rewrite R, E. reflexivity.
Qed.

Lemma imu_line d : print_imu d = let '(g1, g2, g3) := im_gyro d in let '(a1, a2, a3) := im_acce d in
  Some (line [(0, 5, im_time d); (8, 6, g1); (8, 6, g2); (8, 6, g3); (8, 6, a1); (8, 6, a2); (8, 6, a3)]%nat).
Proof.
  unfold print_imu, format. destruct (im_gyro d) as [[g1 g2] g3], (im_acce d) as [[a1 a2] a3].
  set (p := parse _ _). vm_compute in p. subst p. unfold reals.
  cbn [app render show_arg]. unfold show_arg. cbn [Ascii.eqb Bool.eqb].
  cbn [line]. repeat (rewrite ?app_nil_r; cbn [app]). reflexivity.
Qed.
Lemma aux_line d : print_aux d = Some (line [(0, 5, ax_time d); (8, 6, ax_velocity d); (8, 6, ax_angular d)]%nat).
Proof.
  unfold print_aux, format. set (p := parse _ _). vm_compute in p. subst p.
  cbn [app render show_arg]. unfold show_arg. cbn [Ascii.eqb Bool.eqb].
  cbn [line]. repeat (rewrite ?app_nil_r; cbn [app]). reflexivity.
Qed.
Lemma nav_line r : print_nav r = Some (print_result r).
Proof.
  unfold print_nav, format, print_result. destruct (r_vn r) as [[g1 g2] g3], (r_atti r) as [[a1 a2] a3].
  set (p := parse _ _). vm_compute in p. subst p. unfold reals.
  cbn [app render show_arg]. unfold show_arg. cbn [Ascii.eqb Bool.eqb].
  unfold join. cbn [map List.concat]. repeat (rewrite ?app_nil_r; cbn [app]). reflexivity.
Qed.
Lemma gnss_throws d : print_gnss d = None.
Proof.
  unfold print_gnss, format. destruct (gn_std d) as [[g1 g2] g3].
  set (p := parse _ _). vm_compute in p. subst p. unfold reals.
  cbn [app render show_arg]. unfold show_arg. cbn [Ascii.eqb Bool.eqb]. reflexivity.
Qed.

(** ** the second saving function *)
Open Scope string_scope.
Lemma second_save_keys c k v : lookup (save_config c) k = Some v ->
  (k = "ZUPT-Config/ZUPTA-enable" /\ v = S_bool (z_zupt c)) \/ lookup (save_to c) k = Some v.
Proof.
  destruct c as [? ? ? ? ? ? ? gi ? [[? ?] ?] ? ? ? ? ? ? ? ? ? ? ? ? [? ?] [[? ?] ?] [[? ?] ?] ? ? ? ? ? ? ? ? ?
    ? ? ? ? ? ? ? [[? ?] ?] [[? ?] ?] ? ? ? ? ? ? ? ? [[? ?] ?] [[? ?] ?] ? ? ?].
  unfold save_config. cbn [app save3 append x3 y3 z3 g_arm o_angle o_arm a_vn a_atti fst snd o_nhc_std].
  cbn [lookup]. intros H.
  repeat match type of H with
  | (if String.eqb k ?s then _ else _) = _ =>
    destruct (String.eqb_spec k s) as [->|_]; [injection H as <-; first [right; reflexivity|left; split; reflexivity]|]
  end. discriminate H.
Qed.
Lemma second_save_lost k c : In k ["start-time"; "stop-time"; "Odometer/scale-factor"; "Odometer/scale-factor-std";
    "Output-Config/file-path"; "Output-Config/project-enable"; "Output-Config/atti-project"] ->
  lookup (save_config c) k = None.
Proof. intros I. repeat (destruct I as [<-|I]; [reflexivity|]). destruct I. Qed.
Lemma second_save_rest k c v : lookup (save_to c) k = Some v ->
  lookup (save_config c) k = None ->
  In k ["start-time"; "stop-time"; "Odometer/scale-factor"; "Odometer/scale-factor-std";
    "Output-Config/file-path"; "Output-Config/project-enable"; "Output-Config/atti-project"].
Proof.
  destruct c as [? ? ? ? ? ? ? gi ? [[? ?] ?] ? ? ? ? ? ? ? ? ? ? ? ? [? ?] [[? ?] ?] [[? ?] ?] ? ? ? ? ? ? ? ? ?
    ? ? ? ? ? ? ? [[? ?] ?] [[? ?] ?] ? ? ? ? ? ? ? ? [[? ?] ?] [[? ?] ?] ? ? ?].
  unfold save_to. cbn [app save3 append x3 y3 z3 g_arm o_angle o_arm a_vn a_atti fst snd o_nhc_std].
  cbn [lookup]. intros H N.
  repeat match type of H with
  | (if String.eqb k ?s then _ else _) = _ =>
    destruct (String.eqb_spec k s) as [->|_]; [first [discriminate N|simpl; tauto]|]
  end. discriminate H.
Qed.
