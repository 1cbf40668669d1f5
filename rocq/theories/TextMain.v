(** CSV files and names of recordings. *)
From Coq Require Import List NArith ZArith QArith Qabs Qpower Ascii String Bool Lia Lqa.
From Verif Require Import TextModel TextSpec TextProofs TextProofsG.
Import ListNotations.
Open Scope N_scope.

Lemma plain_fraction ds : Forall isdig ds -> Forall plain (fraction ds).
Proof.
  intros H. destruct (fraction_spec ds H) as (f & z & _ & Hf & ->).
  destruct f; [constructor|]. apply Forall_app; split; [plain_str|apply plain_digs, Hf].
Qed.

Lemma plain_g x : Forall plain (print_g x).
Proof.
  destruct x as [s n d|s|s]; cbn [print_g];
    [|apply Forall_app; split; [apply plain_sign|plain_str]..].
  assert (G : forall m e, Forall plain (sign s ++
    (if ((-4 <=? e) && (e <? 6))%Z then
       let k := Z.to_nat (5 - e) in decimal (m / 10 ^ N.of_nat k) ++ fraction (fixed_digits k m)
     else decimal (m / 100000) ++ fraction (fixed_digits 5 m) ++ str "e" ++
       (if (e <? 0)%Z then str "-" else str "+") ++
       (if (Z.abs e <? 10)%Z then str "0" else []) ++ decimal (Z.abs_N e)))).
  { intros m e. apply Forall_app; split; [apply plain_sign|].
    destruct ((-4 <=? e) && (e <? 6))%Z; cbv zeta.
    - apply Forall_app; split; [apply plain_digs, decimal_spec|apply plain_fraction, fixed_spec].
    - apply Forall_app; split; [apply plain_digs, decimal_spec|].
      apply Forall_app; split; [apply plain_fraction, fixed_spec|].
      apply Forall_app; split; [plain_str|].
      apply Forall_app; split; [destruct (e <? 0)%Z; plain_str|].
      apply Forall_app; split; [|apply plain_digs, decimal_spec].
      destruct (Z.abs e <? 10)%Z; [|constructor]. apply plain_digs. repeat constructor. exists 0; split; [lia|reflexivity]. }
  destruct n as [|p].
  - apply Forall_app; split; [apply plain_sign|]. apply plain_digs. repeat constructor. exists 0; split; [lia|reflexivity].
  - destruct (significand (N.pos p) d) as [m e]. apply G.
Qed.

Definition finite (x : num) : Prop := match x with Fin _ _ _ => True | _ => False end.

Lemma cells_spec i cols : (forall c, In c cols -> (i < List.length c)%nat) ->
  cells i cols = Some (List.concat (map (fun c => print_g (nth i c (NaN false)) ++ str ",") cols)).
Proof.
  induction cols as [|c cols IH]; intros H; cbn [cells map List.concat]; [reflexivity|].
  rewrite (nth_error_nth' c (NaN false)) by (apply H; left; reflexivity).
  rewrite IH by (intros; apply H; right; assumption). rewrite app_assoc. reflexivity.
Qed.

Definition row_text (cols : list (list num)) (i : nat) (t : num) : text :=
  List.concat (map (fun x => print_g x ++ str ",") (t :: map (fun c => nth i c (NaN false)) cols)).

Fixpoint rows_from (i : nat) (times : list num) (cols : list (list num)) : list text :=
  match times with [] => [] | t :: r => row_text cols i t :: rows_from (S i) r cols end.

Lemma csv_rows_spec cols : forall times i, (forall c, In c cols -> List.length c = (i + List.length times)%nat) ->
  csv_rows i times cols = Some (List.concat (map (fun r => r ++ [newline]) (rows_from i times cols))).
Proof.
  induction times as [|t times IH]; intros i H; cbn [csv_rows rows_from map List.concat]; [reflexivity|].
  rewrite cells_spec by (intros c Hc; specialize (H c Hc); simpl in H; lia).
  rewrite IH by (intros c Hc; specialize (H c Hc); simpl in H; lia).
  unfold row_text. cbn [map List.concat]. rewrite map_map. f_equal. rewrite <- !app_assoc. reflexivity.
Qed.

Lemma cells_of (l : list text) : (forall t, In t l -> ~ In ","%char t) ->
  csv_cells (List.concat (map (fun t => t ++ str ",") l)) = l.
Proof.
  unfold csv_cells. induction l as [|r l IH]; intros H; [reflexivity|].
  cbn [map List.concat]. rewrite <- app_assoc. change (str "," ++ ?x) with (","%char :: x).
  rewrite pieces_app by (apply H; left; reflexivity).
  rewrite removelast_cons by apply pieces_nonnil. f_equal. apply IH. intros; apply H; right; assumption.
Qed.

Lemma not_in_concat c (l : list text) : c <> ","%char -> (forall t, In t l -> ~ In c t) ->
  ~ In c (List.concat (map (fun t => t ++ str ",") l)).
Proof.
  intros Hc H I. apply in_concat in I. destruct I as (x & Ix & I). apply in_map_iff in Ix. destruct Ix as (t & <- & It).
  apply in_app_or in I. destruct I as [I|I]; [exact (H t It I)|]. destruct I as [I|[]]. congruence.
Qed.

Lemma row_as cols i t : row_text cols i t =
  List.concat (map (fun t => t ++ str ",") (map print_g (t :: map (fun c => nth i c (NaN false)) cols))).
Proof. unfold row_text. rewrite map_map. reflexivity. Qed.

Lemma nth_rows cols : forall times i k t, nth_error times k = Some t ->
  nth_error (rows_from i times cols) k = Some (row_text cols (i + k) t).
Proof.
  induction times as [|t0 times IH]; intros i k t H; [destruct k; discriminate|].
  destruct k; cbn [rows_from nth_error] in *.
  - injection H as <-. rewrite Nat.add_0_r. reflexivity.
  - rewrite (IH (S i) k t H). f_equal. f_equal. lia.
Qed.

Lemma rows_length cols : forall times i, List.length (rows_from i times cols) = List.length times.
Proof. induction times; intros; simpl; [|rewrite IHtimes]; reflexivity. Qed.

Lemma rows_in cols : forall times i r, In r (rows_from i times cols) -> exists k t, r = row_text cols k t.
Proof.
  induction times as [|t times IH]; intros i r H; [destruct H|]. destruct H as [<-|H]; [eauto|]. exact (IH _ _ H).
Qed.

Lemma all_some_g l : Forall finite l -> exists vs, all_some (map read_number (map print_g l)) = Some vs /\
  Forall2 six_digits (map num_value l) vs.
Proof.
  induction 1 as [|x l Hx _ (vs & E & F)]; [exists []; split; [reflexivity|constructor]|].
  destruct x as [s n d| |]; [|destruct Hx..].
  destruct (g_near s n d) as (q & R & S). exists (q :: vs). split; [|constructor; assumption].
  cbn [map all_some]. rewrite R, E. reflexivity.
Qed.

Theorem csv_back names times cols :
  (forall n, In n names -> ~ In ","%char n /\ ~ In newline n) ->
  Forall finite times -> (forall c, In c cols -> List.length c = List.length times /\ Forall finite c) ->
  exists t header rows, save2csv names times cols = Some t /\
    text_lines t = header :: rows /\ csv_cells header = str "time" :: names /\
    List.length rows = List.length times /\
    forall i ti, nth_error times i = Some ti -> exists row vs, nth_error rows i = Some row /\ csv_numbers row = Some vs /\
      Forall2 six_digits (num_value ti :: map (fun c => num_value (nth i c (NaN false))) cols) vs.
Proof.
  intros Hn Ht Hc. unfold save2csv.
  rewrite csv_rows_spec by (intros c I; simpl; apply (Hc c I)).
  set (hd := List.concat (map (fun t => t ++ str ",") (str "time" :: names))).
  eexists _, hd, (rows_from 0 times cols). split; [reflexivity|].
  assert (E : csv_header names ++ List.concat (map (fun r => r ++ [newline]) (rows_from 0 times cols)) =
    List.concat (map (fun r => r ++ [newline]) (hd :: rows_from 0 times cols))).
  { unfold csv_header, hd. cbn [map List.concat]. rewrite <- !app_assoc. reflexivity. }
  rewrite E. split.
  { rewrite (lines_of (fun r => r)); [rewrite map_id; reflexivity|].
    intros r [<-|I].
    - apply not_in_concat; [discriminate|]. intros t [<-|It]; [simpl; intuition discriminate|apply (Hn t It)].
    - destruct (rows_in _ _ _ _ I) as (k & t & ->). rewrite row_as. apply not_in_concat; [discriminate|].
      intros x Ix. apply in_map_iff in Ix. destruct Ix as (y & <- & _). apply nl_not, plain_g. }
  split.
  { apply cells_of. intros t [<-|It]; [simpl; intuition discriminate|apply (Hn t It)]. }
  split; [apply rows_length|].
  intros i ti Hi. pose proof (nth_rows cols times 0 i ti Hi) as NR. rewrite Nat.add_0_l in NR.
  assert (F : Forall finite (ti :: map (fun c => nth i c (NaN false)) cols)).
  { constructor; [rewrite Forall_forall in Ht; apply Ht, (nth_error_In _ _ Hi)|].
    apply Forall_forall. intros x Ix. apply in_map_iff in Ix. destruct Ix as (c & <- & Ic).
    destruct (Hc c Ic) as [L Fc]. rewrite Forall_forall in Fc. apply Fc, nth_In. rewrite L.
    apply nth_error_Some. rewrite Hi. discriminate. }
  destruct (all_some_g _ F) as (vs & R & S). exists (row_text cols i ti), vs. split; [exact NR|]. split.
  - unfold csv_numbers. rewrite row_as, cells_of; [exact R|].
    intros x Ix. apply in_map_iff in Ix. destruct Ix as (y & <- & _). apply comma_not, plain_g.
  - cbn [map] in S. rewrite map_map in S. exact S.
Qed.

(** the same whole second *)
Definition same_second (a b : num) : Prop :=
  match a, b with
  | Fin false n d, Fin false n' d' => exists k, 100000 <= k <= 999999 /\
      (100000 # 1 <= Z.of_N n # d)%Q /\ (100000 # 1 <= Z.of_N n' # d')%Q /\
      (Qabs ((Z.of_N n # d) - inject_Z (Z.of_N k)) < 1 # 2)%Q /\ (Qabs ((Z.of_N n' # d') - inject_Z (Z.of_N k)) < 1 # 2)%Q
  | _, _ => False
  end.

Theorem csv_same_second names cols times times' : Forall2 same_second times times' ->
  save2csv names times cols = save2csv names times' cols.
Proof.
  intros H. unfold save2csv.
  assert (G : forall i, csv_rows i times cols = csv_rows i times' cols).
  { induction H as [|a b l l' S _ IH]; intros i; [reflexivity|]. cbn [csv_rows]. rewrite IH.
    assert (E : print_g a = print_g b).
    { destruct a as [[|] n d| |], b as [[|] n' d'| |]; try contradiction.
      destruct S as (k & Hk & L & L' & N1 & N2).
      rewrite (g_whole n d k Hk L N1), (g_whole n' d' k Hk L' N2). reflexivity. }
    rewrite E. reflexivity. }
  rewrite G. reflexivity.
Qed.

(** * results *)
Definition finite_result (r : result) : Prop :=
  let '(v1, v2, v3) := r_vn r in let '(a1, a2, a3) := r_atti r in
  Forall finite [r_gpst r; r_lat r; r_lon r; r_height r; v1; v2; v3; a1; a2; a3].

(** what a line says about a result *)
Definition row_tells (r : result) (row : list Q) : Prop :=
  let '(v1, v2, v3) := r_vn r in let '(a1, a2, a3) := r_atti r in
  match row with
  | [week; gpst; lat; lon; height; w1; w2; w3; b1; b2; b3; mode; sensors] =>
    (week == inject_Z (r_week r))%Q /\ decimals 6 (num_value (r_gpst r)) gpst /\
    decimals 12 (num_value (r_lat r)) lat /\ decimals 12 (num_value (r_lon r)) lon /\
    decimals 4 (num_value (r_height r)) height /\
    decimals 6 (num_value v1) w1 /\ decimals 6 (num_value v2) w2 /\ decimals 6 (num_value v3) w3 /\
    decimals 6 (num_value a1) b1 /\ decimals 6 (num_value a2) b2 /\ decimals 6 (num_value a3) b3 /\
    (mode == inject_Z (Z.of_N (r_mode r)))%Q /\ (sensors == inject_Z (Z.of_N (r_sensors r)))%Q
  | _ => False
  end.

Lemma fin_fixed k x : finite x -> exists q, read_number (print_fixed k x) = Some q /\ decimals (Z.of_nat k) (num_value x) q.
Proof. destruct x; intros []. apply fixed_near. Qed.

Lemma result_back r : finite_result r -> exists row, numbers (print_result r) = Some row /\ row_tells r row.
Proof.
  unfold finite_result, numbers, row_tells. rewrite result_words. unfold fields.
  destruct (r_vn r) as [[v1 v2] v3], (r_atti r) as [[a1 a2] a3]. intros F. rewrite Forall_forall in F. simpl in F.
  destruct (read_int (r_week r)) as (q0 & R0 & E0).
  destruct (fin_fixed 6 (r_gpst r)) as (q1 & R1 & E1); [apply F; tauto|].
  destruct (fin_fixed 12 (r_lat r)) as (q2 & R2 & E2); [apply F; tauto|].
  destruct (fin_fixed 12 (r_lon r)) as (q3 & R3 & E3); [apply F; tauto|].
  destruct (fin_fixed 4 (r_height r)) as (q4 & R4 & E4); [apply F; tauto|].
  destruct (fin_fixed 6 v1) as (q5 & R5 & E5); [apply F; tauto|].
  destruct (fin_fixed 6 v2) as (q6 & R6 & E6); [apply F; tauto|].
  destruct (fin_fixed 6 v3) as (q7 & R7 & E7); [apply F; tauto|].
  destruct (fin_fixed 6 a1) as (q8 & R8 & E8); [apply F; tauto|].
  destruct (fin_fixed 6 a2) as (q9 & R9 & E9); [apply F; tauto|].
  destruct (fin_fixed 6 a3) as (q10 & R10 & E10); [apply F; tauto|].
  destruct (read_int (Z.of_N (r_mode r))) as (q11 & R11 & E11).
  destruct (read_int (Z.of_N (r_sensors r))) as (q12 & R12 & E12).
  exists [q0; q1; q2; q3; q4; q5; q6; q7; q8; q9; q10; q11; q12].
  unfold map. rewrite R0, R1, R2, R3, R4, R5, R6, R7, R8, R9, R10, R11, R12.
  split; [reflexivity|]. tauto.
Qed.

Theorem text_back raw rs : Forall finite_result rs ->
  Forall2 (fun r line => exists row, numbers line = Some row /\ row_tells r row) rs (text_lines (pva_file raw 1 rs)).
Proof.
  intros H. unfold pva_file.
  change (text_lines (List.concat (map (pva_write raw 1) rs))) with
    (text_lines (List.concat (map (fun r => print_result r ++ [newline]) rs))).
  rewrite lines_of by (intros; apply result_nl).
  induction H as [|r rs Hr _ IH]; cbn [map]; constructor; [apply result_back, Hr|exact IH].
Qed.

Theorem other_empty raw fmt rs : fmt <> 0%Z -> fmt <> 1%Z -> pva_file raw fmt rs = [].
Proof.
  intros A B. unfold pva_file. induction rs; [reflexivity|]. cbn [map List.concat]. rewrite IHrs. unfold pva_write.
  destruct (Z.eqb_spec fmt 1); [congruence|]. destruct (Z.eqb_spec fmt 0); [congruence|]. reflexivity.
Qed.

(** * the asynchronous writer *)
Theorem nav_binary raw doubles kd rs : nav_file raw doubles kd 0 rs = pva_file raw 0 rs.
Proof. reflexivity. Qed.
Theorem nav_text raw doubles kd rs : nav_file raw doubles kd 1 rs = List.concat (map doubles rs).
Proof. reflexivity. Qed.

(** * names of recordings *)
Definition broken_down (m : moment) : tm :=
  {| tm_year := m_year m - 1900; tm_mon := m_month m - 1; tm_mday := m_day m; tm_hour := m_hour m;
     tm_min := m_minute m; tm_sec := m_second m |}.

Lemma dec_fixed fuel : forall n, n < 10 * 10 ^ N.of_nat fuel -> forall w, n < 10 ^ N.of_nat w -> (1 <= w)%nat ->
  repeat "0"%char (w - List.length (dec fuel n)) ++ dec fuel n = fixed_digits w n /\ (List.length (dec fuel n) <= w)%nat.
Proof.
  induction fuel as [|k IH]; intros n H w Hw W; cbn [dec].
  - assert (L : n < 10) by (simpl in H; lia). rewrite N.mod_small by exact L. cbn [List.length]. split; [|lia].
    destruct w as [|w]; [lia|]. cbn [fixed_digits]. rewrite N.mod_small, N.div_small by exact L.
    replace (S w - 1)%nat with w by lia. f_equal. clear. induction w; [reflexivity|].
    cbn [fixed_digits]. change (0 / 10) with 0. rewrite <- IHw. change (digit (0 mod 10)) with "0"%char. clear.
    induction w; [reflexivity|]. cbn [repeat app] in *. f_equal. exact IHw.
  - destruct (N.ltb_spec n 10) as [L|L].
    + cbn [List.length]. split; [|lia].
      destruct w as [|w]; [lia|]. cbn [fixed_digits]. rewrite N.mod_small, N.div_small by exact L.
      replace (S w - 1)%nat with w by lia. f_equal. clear. induction w; [reflexivity|].
      cbn [fixed_digits]. change (0 / 10) with 0. rewrite <- IHw. change (digit (0 mod 10)) with "0"%char. clear.
      induction w; [reflexivity|]. cbn [repeat app] in *. f_equal. exact IHw.
    + destruct w as [|w]; [lia|]. rewrite Nat2N.inj_succ, N.pow_succ_r' in Hw.
      destruct (IH (n / 10)) with (w := w) as [A B].
      * apply N.div_lt_upper_bound; [lia|]. rewrite Nat2N.inj_succ, N.pow_succ_r' in H. lia.
      * apply N.div_lt_upper_bound; [lia|]. lia.
      * destruct w; [simpl in Hw; lia|lia].
      * rewrite app_length. cbn [List.length fixed_digits]. split; [|lia].
        replace (S w - (List.length (dec k (n / 10)) + 1))%nat with (w - List.length (dec k (n / 10)))%nat by lia.
        rewrite app_assoc, A. reflexivity.
Qed.

Lemma zero_pad_fixed w n : n < 10 ^ N.of_nat w -> (1 <= w)%nat -> zero_pad w n = fixed_digits w n.
Proof.
  intros H W. unfold zero_pad, decimal. apply dec_fixed; try assumption.
  pose proof (size_bound n). pose proof (pow2_10 (N.of_nat (N.size_nat n))). lia.
Qed.

Definition prefix_of (argv0 : option text) : text := match argv0 with None => str "recorder" | Some a => a end.

Definition stamp_text (m : moment) : text :=
  fixed_digits 4 (m_year m) ++ fixed_digits 2 (m_month m - 1) ++ fixed_digits 2 (m_day m) ++
  str "_" ++ fixed_digits 2 (m_hour m) ++ fixed_digits 2 (m_minute m) ++ fixed_digits 2 (m_second m) ++ str ".rcd".

Lemma name_text a m : proper m -> rcd_name a (broken_down m) = prefix_of a ++ str "." ++ stamp_text m.
Proof.
  intros (Y & M & D & H & I & S). unfold rcd_name, broken_down, stamp_text, prefix_of. cbn [tm_year tm_mon tm_mday tm_hour tm_min tm_sec].
  replace (m_year m - 1900 + 1900) with (m_year m) by lia.
  rewrite !zero_pad_fixed by (try lia; change (N.of_nat 4) with 4; change (N.of_nat 2) with 2; change (10 ^ 4) with 10000; change (10 ^ 2) with 100; lia).
  reflexivity.
Qed.

Lemma order_app : forall a b x y, List.length a = List.length b -> name_order (a ++ x) (b ++ y) = then_ (name_order a b) (name_order x y).
Proof.
  induction a as [|c a IH]; intros [|d b] x y L; try discriminate; [reflexivity|]. cbn [app name_order].
  rewrite IH by (simpl in L; lia). destruct (N_of_ascii c ?= N_of_ascii d); reflexivity.
Qed.
Lemma order_refl a : name_order a a = Eq.
Proof. induction a; [reflexivity|]. simpl. rewrite N.compare_refl. exact IHa. Qed.

Lemma order_digit a b : a < 10 -> b < 10 -> name_order [digit a] [digit b] = (a ?= b).
Proof.
  intros A B. cbn [name_order]. unfold digit. rewrite !N_ascii_embedding by lia.
  destruct (N.compare_spec a b); destruct (N.compare_spec (48 + a) (48 + b)); try reflexivity; lia.
Qed.

Lemma order_fixed w : forall a b, a < 10 ^ N.of_nat w -> b < 10 ^ N.of_nat w ->
  name_order (fixed_digits w a) (fixed_digits w b) = (a ?= b).
Proof.
  induction w as [|w IH]; intros a b A B.
  - simpl in *. replace a with 0 by lia. replace b with 0 by lia. reflexivity.
  - rewrite Nat2N.inj_succ, N.pow_succ_r' in A, B. cbn [fixed_digits].
    rewrite order_app by (rewrite !fixed_length; reflexivity).
    rewrite IH by (apply N.div_lt_upper_bound; lia).
    rewrite order_digit by (apply N.mod_lt; lia).
    pose proof (N.div_mod' a 10). pose proof (N.div_mod' b 10).
    assert (a mod 10 < 10) by (apply N.mod_lt; lia). assert (b mod 10 < 10) by (apply N.mod_lt; lia).
    clear A B IH. set (p := a / 10) in *. set (q := b / 10) in *. set (r := a mod 10) in *. set (s := b mod 10) in *.
    clearbody p q r s.
    destruct (N.compare_spec p q); cbn [then_]; destruct (N.compare_spec a b);
      try reflexivity; destruct (N.compare_spec r s); try reflexivity; exfalso; lia.
Qed.

Theorem names_sort a m1 m2 : proper m1 -> proper m2 ->
  name_order (rcd_name a (broken_down m1)) (rcd_name a (broken_down m2)) = time_order m1 m2.
Proof.
  intros P1 P2. rewrite !name_text by assumption. rewrite order_app by reflexivity. rewrite order_refl. cbn [then_].
  rewrite order_app, order_refl by reflexivity. cbn [then_]. unfold stamp_text, time_order.
  destruct P1 as (Y & M & D & H & I & S), P2 as (Y' & M' & D' & H' & I' & S').
  rewrite !order_app by (rewrite ?fixed_length; reflexivity).
  rewrite !order_refl. cbn [then_].
  rewrite !order_fixed by (change (N.of_nat 4) with 4; change (N.of_nat 2) with 2; change (10 ^ 4) with 10000; change (10 ^ 2) with 100; lia).
  assert (Em : (m_month m1 - 1 ?= m_month m2 - 1) = (m_month m1 ?= m_month m2)).
  { destruct (N.compare_spec (m_month m1) (m_month m2)); destruct (N.compare_spec (m_month m1 - 1) (m_month m2 - 1)); try reflexivity; lia. }
  rewrite Em.
  assert (Ee : forall c, then_ c Eq = c) by (intros []; reflexivity). rewrite Ee. reflexivity.
Qed.

Lemma number_fixed w n : n < 10 ^ N.of_nat w -> fst (fst (take_digits 0 0 (fixed_digits w n))) = n.
Proof.
  intros H. destruct (fixed_spec w n) as [F V].
  rewrite <- (app_nil_r (fixed_digits w n)), take_digits_app by exact F. cbn [take_digits fst]. rewrite V. rewrite N.mod_small by exact H. lia.
Qed.

Lemma skip_app {A} (a b : list A) n : List.length a = n -> skipn n (a ++ b) = b.
Proof. intros <-. rewrite skipn_app, skipn_all, Nat.sub_diag. reflexivity. Qed.
Lemma first_app {A} (a b : list A) n : List.length a = n -> firstn n (a ++ b) = a.
Proof. intros <-. rewrite firstn_app, Nat.sub_diag, firstn_all, firstn_O. apply app_nil_r. Qed.

Lemma stamp_name a m : proper m -> stamp (prefix_of a) (rcd_name a (broken_down m)) = stamp_text m.
Proof.
  intros P. rewrite name_text by exact P. unfold stamp. rewrite app_assoc. apply skip_app. rewrite app_length. reflexivity.
Qed.

Lemma number_at_app pre w n post : n < 10 ^ N.of_nat w -> number_at (List.length pre) w (pre ++ fixed_digits w n ++ post) = n.
Proof.
  intros H. unfold number_at. rewrite skip_app by reflexivity. rewrite first_app by apply fixed_length. apply number_fixed, H.
Qed.

Theorem name_date a m : proper m ->
  stamp_date (stamp (prefix_of a) (rcd_name a (broken_down m))) = (m_year m, m_month m - 1, m_day m) /\
  stamp_time (stamp (prefix_of a) (rcd_name a (broken_down m))) = (m_hour m, m_minute m, m_second m).
Proof.
  intros P. rewrite stamp_name by exact P. destruct P as (Y & M & D & H & I & S).
  unfold stamp_date, stamp_time, stamp_text.
  set (y := m_year m) in *. set (o := m_month m) in *. set (d := m_day m) in *. set (h := m_hour m) in *.
  set (i := m_minute m) in *. set (s := m_second m) in *.
  assert (B4 : 10 ^ N.of_nat 4 = 10000) by reflexivity. assert (B2 : 10 ^ N.of_nat 2 = 100) by reflexivity.
  assert (L : forall w n, List.length (fixed_digits w n) = w) by (intros; apply fixed_length).
  pose proof (number_at_app [] 4 y) as N0. pose proof (number_at_app (fixed_digits 4 y) 2 (o - 1)) as N1.
  pose proof (number_at_app (fixed_digits 4 y ++ fixed_digits 2 (o - 1)) 2 d) as N2.
  pose proof (number_at_app (fixed_digits 4 y ++ fixed_digits 2 (o - 1) ++ fixed_digits 2 d ++ str "_") 2 h) as N3.
  pose proof (number_at_app (fixed_digits 4 y ++ fixed_digits 2 (o - 1) ++ fixed_digits 2 d ++ str "_" ++ fixed_digits 2 h) 2 i) as N4.
  pose proof (number_at_app (fixed_digits 4 y ++ fixed_digits 2 (o - 1) ++ fixed_digits 2 d ++ str "_" ++ fixed_digits 2 h ++ fixed_digits 2 i) 2 s) as N5.
  rewrite ?app_length, ?L in *. rewrite <- ?app_assoc in *. cbn [List.length Nat.add] in *.
  change (List.length (str "_")) with 1%nat in *. cbn [Nat.add] in *.
  split.
  - f_equal; [f_equal|]; [apply N0|apply N1|rewrite <- N2 at 2; [|]]; try lia.
    rewrite <- app_assoc. reflexivity.
  - f_equal; [f_equal|].
    + etransitivity; [|apply N3; lia]. rewrite <- !app_assoc. reflexivity.
    + etransitivity; [|apply N4; lia]. rewrite <- !app_assoc. reflexivity.
    + etransitivity; [|apply N5; lia]. rewrite <- !app_assoc. reflexivity.
Qed.

Theorem name_fits a m : proper m -> rcd_name_fits a (broken_down m) = (List.length (prefix_of a) <=? 107)%nat.
Proof.
  intros P. unfold rcd_name_fits. rewrite name_text by exact P. unfold stamp_text. rewrite !app_length, !fixed_length.
  change (List.length (str ".")) with 1%nat. change (List.length (str "_")) with 1%nat. change (List.length (str ".rcd")) with 4%nat.
  destruct (Nat.leb_spec (List.length (prefix_of a)) 107); [apply Nat.ltb_lt|apply Nat.ltb_ge]; lia.
Qed.
