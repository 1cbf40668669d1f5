(** Proofs about the summary of a recording. *)
From Coq Require Import NArith ZArith QArith List Ascii String Sorted Permutation Lia.
From Verif Require Import CrcModel RecorderModel LoaderModel TextModel TextSpec TextProofs SummaryModel SummarySpec.
Import ListNotations.
Open Scope N_scope.

(** ** the buffer *)
Definition len (t : text) : N := N.of_nat (List.length t).
Lemma len_app a b : len (a ++ b) = len a + len b.
Proof. unfold len. rewrite app_length. lia. Qed.
Lemma print_none ts : fold_left print_to ts None = None.
Proof. induction ts; auto. Qed.
Lemma prints ts : forall b, len b + 1 <= 4096 -> fold_left print_to ts (Some b) =
  if len (b ++ List.concat ts) + 1 <=? 4096 then Some (b ++ List.concat ts) else None.
Proof.
  induction ts as [|t ts IH]; intros b H; cbn [fold_left List.concat].
  - rewrite app_nil_r. destruct (N.leb_spec (len b + 1) 4096); [reflexivity|lia].
  - unfold print_to at 2. fold (len b) (len t). destruct (N.leb_spec (len b + len t + 1) 4096).
    + rewrite IH by (rewrite len_app; lia). rewrite <- app_assoc. reflexivity.
    + rewrite print_none. rewrite app_assoc, !len_app.
      destruct (N.leb_spec (len b + len t + len (List.concat ts) + 1) 4096); [lia|reflexivity].
Qed.

(** ** the lines, without their ends *)
Definition head_line (st : loader) : text := str "Header size " ++ decimal (l_header_size st) ++ [tab] ++ str "Recorder version:" ++
  print_fixed 2 (f32_num (l_version st)) ++ str " ".
Definition count_line (st : loader) : text := str "Valid dataset(" ++ two_digits (N.of_nat (List.length (l_data st))) ++ str ") incuding:".
Definition column_line : text := [tab] ++ str "         dataset         ID     size  subsets".
Definition set_text (p : N * dataset) : text :=
  [tab] ++ pad 16 (chars_of (d_name (snd p))) ++ str " " ++ pad 10 (hexadecimal (fst p)) ++ str " " ++
  pad 8 (decimal (N.of_nat (List.length (d_time (snd p))))) ++ str " " ++ pad 8 (print_int (signed 4 (d_cnt (snd p)))).
Definition error_lines (fn : text) (st : loader) : list text :=
  match l_strs st with [] => [] | _ => str "Errors:" :: map (complaint fn) (l_strs st) end.
Definition lines (fn : text) (st : loader) : list text :=
  [[]; head_line st; count_line st; column_line] ++ map set_text (in_order (l_data st)) ++ error_lines fn st.
Definition ended (ls : list text) : text := List.concat (map (fun l => l ++ [newline]) ls).

Lemma fold_map {A} (f : A -> text) l : forall b, fold_left (fun b x => print_to b (f x)) l b = fold_left print_to (map f l) b.
Proof. induction l; intros b; cbn; auto. Qed.
Lemma ended_app a b : ended (a ++ b) = ended a ++ ended b.
Proof. unfold ended. rewrite map_app, concat_app. reflexivity. Qed.
Lemma set_line_text p : set_line p = set_text p ++ [newline].
Proof. unfold set_line, set_text. rewrite <- !app_assoc. reflexivity. Qed.
Lemma error_complaint fn e : error_text fn e = complaint fn e.
Proof. destruct e; reflexivity. Qed.

Lemma summary_lines fn st : summary fn st =
  if len (ended (lines fn st)) + 1 <=? 4096 then Some (ended (lines fn st)) else None.
Proof.
  set (parts := ([newline] ++ head_line st ++ [newline]) :: (count_line st ++ [newline]) :: (column_line ++ [newline])
      :: map (fun l => l ++ [newline]) (map set_text (in_order (l_data st)) ++ error_lines fn st)).
  assert (E : summary fn st = fold_left print_to parts (Some [])).
  { unfold summary, parts. cbn [fold_left].
    replace ([newline] ++ head_line st ++ [newline]) with
      ([newline] ++ str "Header size " ++ decimal (l_header_size st) ++ [tab] ++ str "Recorder version:" ++
       print_fixed 2 (f32_num (l_version st)) ++ str " " ++ [newline]) by (unfold head_line; rewrite <- !app_assoc; reflexivity).
    replace (count_line st ++ [newline]) with
      (str "Valid dataset(" ++ two_digits (N.of_nat (List.length (l_data st))) ++ str ") incuding:" ++ [newline])
      by (unfold count_line; rewrite <- !app_assoc; reflexivity).
    change (column_line ++ [newline]) with ([tab] ++ pad 16 (str "dataset") ++ str " " ++ pad 10 (str "ID") ++ str " " ++ pad 8 (str "size") ++ str " " ++
                         pad 8 (str "subsets") ++ [newline]).
    set (b2 := print_to _ _). rewrite map_app, fold_left_app, map_map.
    rewrite fold_map. rewrite (map_ext _ _ set_line_text). unfold error_lines.
    destruct (l_strs st) as [|e es]; [reflexivity|].
    cbn [map fold_left]. rewrite fold_map. rewrite error_complaint. rewrite map_map.
    rewrite (map_ext (fun e => error_text fn e ++ [newline]) (fun e => complaint fn e ++ [newline])); [reflexivity|].
    intros a. rewrite error_complaint. reflexivity. }
  rewrite E, prints by (vm_compute; discriminate). cbn [app].
  assert (C : List.concat parts = ended (lines fn st)).
  { unfold parts, lines. rewrite ended_app. unfold ended at 1. cbn [map List.concat app]. rewrite app_nil_r, <- !app_assoc. reflexivity. }
  rewrite C. reflexivity.
Qed.

(** ** the order *)
Lemma put_perm {A} k (v : A) m : Permutation (put k v m) ((k, v) :: m).
Proof.
  induction m as [|p m IH]; cbn [put]; [reflexivity|]. destruct (k <? fst p); [reflexivity|].
  rewrite IH. apply perm_swap.
Qed.
Lemma in_order_perm {A} (m : list (N * A)) : Permutation (in_order m) m.
Proof.
  induction m as [|[k v] m IH]; [constructor|]. unfold in_order in *. cbn [fold_right fst snd]. rewrite put_perm. constructor. exact IH.
Qed.
Lemma put_sorted {A} k (v : A) m : StronglySorted (fun a b => fst a <= fst b) m -> StronglySorted (fun a b => fst a <= fst b) (put k v m).
Proof.
  induction 1 as [|p m S IH F]; cbn [put]; [repeat constructor|]. destruct (N.ltb_spec k (fst p)).
  - constructor; [constructor; assumption|]. constructor; [cbn; lia|]. apply Forall_forall. intros q Hq. rewrite Forall_forall in F. specialize (F q Hq). cbn. lia.
  - constructor; [exact IH|]. apply Forall_forall. intros q Hq. rewrite put_perm in Hq.
    destruct Hq as [<-|Hq]; [cbn; lia|]. rewrite Forall_forall in F. apply F, Hq.
Qed.
Lemma in_order_sorted {A} (m : list (N * A)) : StronglySorted (fun a b => fst a <= fst b) (in_order m).
Proof. induction m as [|[k v] m IH]; [constructor|]. unfold in_order in *. cbn [fold_right fst snd]. apply put_sorted, IH. Qed.

(** ** hexadecimal numbers *)
Definition ishex (c : ascii) := exists d, d < 16 /\ c = hex_digit d.
Lemma hex_value_digit d : d < 16 -> hex_value (hex_digit d) = Some d.
Proof.
  intros H. assert (E : In d (map N.of_nat (seq 0 16))) by (apply in_map_iff; exists (N.to_nat d); split; [lia|apply in_seq; lia]).
  vm_compute in E. repeat (destruct E as [<-|E]; [reflexivity|]). destruct E.
Qed.
Lemma read_hex_app a : forall b acc n, read_hex acc a = Some n -> read_hex acc (a ++ b) = read_hex n b.
Proof.
  induction a as [|c a IH]; intros b acc n H; cbn in *; [congruence|]. destruct (hex_value c); [|discriminate]. apply IH, H.
Qed.
Lemma hexa_spec fuel : forall n, n < 16 * 16 ^ N.of_nat fuel ->
  Forall ishex (hexa fuel n) /\ hexa fuel n <> [] /\ read_hex 0 (hexa fuel n) = Some n.
Proof.
  induction fuel as [|k IH]; intros n H; cbn [hexa].
  - assert (n < 16) by (change (16 ^ N.of_nat 0) with 1 in H; lia). rewrite N.mod_small by assumption.
    split; [repeat constructor; exists n; auto|]. split; [discriminate|]. cbn [read_hex]. rewrite hex_value_digit by assumption. f_equal; lia.
  - destruct (N.ltb_spec n 16) as [L|L].
    + split; [repeat constructor; exists n; auto|]. split; [discriminate|]. cbn [read_hex]. rewrite hex_value_digit by assumption. f_equal; lia.
    + assert (Hq : n / 16 < 16 * 16 ^ N.of_nat k).
      { apply N.div_lt_upper_bound; [lia|]. rewrite Nat2N.inj_succ, N.pow_succ_r' in H. lia. }
      destruct (IH _ Hq) as (A & B & C). assert (Hm : n mod 16 < 16) by (apply N.mod_lt; lia).
      split; [apply Forall_app; split; [exact A|repeat constructor; eexists; eauto]|].
      split; [destruct (hexa k (n / 16)); discriminate|].
      rewrite (read_hex_app _ _ _ _ C). cbn [read_hex]. rewrite hex_value_digit by exact Hm. f_equal. pose proof (N.div_mod' n 16). lia.
Qed.
Lemma hexadecimal_spec n : Forall ishex (hexadecimal n) /\ hexadecimal n <> [] /\ read_hex 0 (hexadecimal n) = Some n.
Proof.
  apply hexa_spec. pose proof (size_bound n).
  assert (2 ^ N.of_nat (N.size_nat n) <= 16 ^ N.of_nat (N.size_nat n)) by (apply N.pow_le_mono_l; lia). lia.
Qed.
Lemma hex_not t c : Forall ishex t -> hex_value c = None -> ~ In c t.
Proof. intros F H I. rewrite Forall_forall in F. destruct (F _ I) as (d & D & ->). rewrite hex_value_digit in H by exact D. discriminate. Qed.

(** ** names *)
Lemma chars_not l c : readable_name l -> N_of_ascii c <= 32 -> ~ In c (chars_of l).
Proof.
  intros [_ F] H I. apply in_map_iff in I. destruct I as (b & <- & Hb). rewrite Forall_forall in F. specialize (F b Hb).
  rewrite N_ascii_embedding in H by lia. lia.
Qed.
Lemma chars_ne l : readable_name l -> chars_of l <> [].
Proof. intros [H _]. destruct l; [congruence|discriminate]. Qed.

(** ** one data set *)
Lemma signed_small n : n < 2 ^ 31 -> signed 4 n = Z.of_N n.
Proof.
  intros H. unfold signed. change (2 ^ (8 * Z.of_nat 4 - 1))%Z with 2147483648%Z. change (2 ^ 31) with 2147483648 in H.
  destruct (Z.ltb_spec (Z.of_N n) 2147483648); [reflexivity|lia].
Qed.
Lemma isdig_plain n : Forall plain (decimal n).
Proof. apply plain_digs. apply decimal_spec. Qed.
Lemma decimal_int n : decimal n = print_int (Z.of_N n).
Proof. unfold print_int. destruct (Z.ltb_spec (Z.of_N n) 0); [lia|]. cbn [sign app]. rewrite Zabs2N.id. reflexivity. Qed.
Lemma read_decimal n : exists q, read_number (decimal n) = Some q /\ (q == inject_Z (Z.of_N n))%Q.
Proof. rewrite decimal_int. apply read_int. Qed.

Lemma set_told p : readable_name (d_name (snd p)) -> d_cnt (snd p) < 2 ^ 31 -> tells_of p (set_text p).
Proof.
  intros Hn Hc. unfold set_text. rewrite signed_small by exact Hc.
  destruct (hexadecimal_spec (fst p)) as (X1 & X2 & X3).
  destruct (read_decimal (N.of_nat (List.length (d_time (snd p))))) as (qs & S1 & S2).
  destruct (read_int (Z.of_N (d_cnt (snd p)))) as (qc & C1 & C2).
  destruct (plain_int (Z.of_N (d_cnt (snd p)))) as (P1 & P2).
  destruct (decimal_spec (N.of_nat (List.length (d_time (snd p))))) as (D1 & D2 & _).
  eexists _, _, _, _, _, qs, qc. split; [reflexivity|]. split.
  - unfold text_words. change (str " ") with [" "%char]. cbn [app].
    change (filter _) with (filter nonempty).
    rewrite words_pad_cons by (first [apply chars_not; [exact Hn|vm_compute; discriminate]|apply chars_ne, Hn]).
    rewrite words_pad_cons by (first [apply hex_not; [exact X1|reflexivity]|exact X2]).
    rewrite words_pad_cons by (first [apply blank_not, plain_digs, D1|exact D2]).
    rewrite words_pad by (first [apply blank_not, P1|exact P2]). reflexivity.
  - split; [reflexivity|]. split; [exact X3|]. split; [exact S1|]. split; [rewrite S2, nat_N_Z; reflexivity|]. split; assumption.
Qed.

(** ** no line contains the end of a line *)
Lemma not_in_app (c : ascii) a b : ~ In c a -> ~ In c b -> ~ In c (a ++ b).
Proof. intros A B I. apply in_app_or in I. tauto. Qed.
Lemma str_nl s : existsb (Ascii.eqb newline) (str s) = false -> ~ In newline (str s).
Proof. intros H I. assert (existsb (Ascii.eqb newline) (str s) = true); [|congruence]. apply existsb_exists. exists newline. split; [exact I|apply Ascii.eqb_refl]. Qed.
Lemma tab_nl : ~ In newline [tab]. Proof. intros [H|[]]; discriminate. Qed.
Lemma two_plain n : Forall plain (two_digits n).
Proof. unfold two_digits. destruct (n <? 10); [|apply isdig_plain]. constructor; [|apply isdig_plain]. apply (Forall_inv (plain_digs [digit 0] ltac:(repeat constructor; apply isdig_digit; lia))). Qed.
Lemma set_nl p : readable_name (d_name (snd p)) -> ~ In newline (set_text p).
Proof.
  intros Hn. unfold set_text.
  assert (K : ~ In newline (print_int (signed 4 (d_cnt (snd p))))) by (apply nl_not; apply (proj1 (plain_int _))).
  set (subs := print_int _) in *. clearbody subs.
  repeat first [apply tab_nl | apply nl_pad | apply not_in_app | (apply str_nl; reflexivity)].
  - apply chars_not; [exact Hn|vm_compute; discriminate].
  - apply hex_not; [apply hexadecimal_spec|reflexivity].
  - apply nl_not, isdig_plain.
  - exact K.
Qed.
Lemma complaint_nl fn e : ~ In newline fn -> ~ In newline (complaint fn e).
Proof.
  intros H. destruct e; cbn [complaint]; repeat first [apply not_in_app | (apply str_nl; reflexivity) | exact H]. apply nl_not, isdig_plain.
Qed.
Lemma lines_nl fn st : ~ In newline fn -> Forall (fun p => readable_name (d_name (snd p))) (l_data st) ->
  Forall (fun l => ~ In newline l) (lines fn st).
Proof.
  intros F H. unfold lines. apply Forall_app. split; [|apply Forall_app; split].
  - constructor; [intros []|]. constructor.
    { unfold head_line. repeat first [apply not_in_app | (apply str_nl; reflexivity) | apply tab_nl | apply nl_not].
      - apply isdig_plain. - apply plain_fixed. }
    constructor.
    { unfold count_line. repeat first [apply not_in_app | (apply str_nl; reflexivity) | apply tab_nl | apply nl_not]. apply two_plain. }
    constructor; [|constructor]. unfold column_line. apply not_in_app; [apply tab_nl|apply str_nl; reflexivity].
  - apply Forall_forall. intros t I. apply in_map_iff in I. destruct I as (p & <- & I). apply set_nl.
    rewrite Forall_forall in H. apply H. apply (Permutation_in _ (in_order_perm (l_data st))), I.
  - unfold error_lines. destruct (l_strs st) as [|e es]; [constructor|]. constructor; [apply str_nl; reflexivity|].
    apply Forall_forall. intros t I. apply in_map_iff in I. destruct I as (x & <- & I). apply complaint_nl, F.
Qed.
Lemma ended_lines ls : Forall (fun l => ~ In newline l) ls -> text_lines (ended ls) = ls.
Proof.
  intros F. unfold ended. rewrite (lines_of (fun l => l)); [apply map_id|]. intros r I. rewrite Forall_forall in F. apply F, I.
Qed.
Lemma summary_text_lines fn st t : ~ In newline fn -> Forall (fun p => readable_name (d_name (snd p))) (l_data st) ->
  summary fn st = Some t -> text_lines t = lines fn st.
Proof.
  intros F H. rewrite summary_lines. destruct (_ <=? _); [|discriminate]. intros E. injection E as <-.
  apply ended_lines, lines_nl; assumption.
Qed.
