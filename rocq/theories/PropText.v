(** Properties C89 - C92: what the programs write as text. *)
From Coq Require Import List NArith ZArith QArith Qabs Ascii String Bool Lia Lqa.
From Verif Require Import TextModel TextSpec TextProofs TextProofsG TextMain.
Import ListNotations.
Open Scope N_scope.

(** a result of a usual run: 2021-03-01, 30.5 N, 114.3 E *)
Definition sample_result : result :=
  {| r_week := 2147; r_gpst := Fin false 3700000049 10000; r_lat := Fin false 305 10; r_lon := Fin true 1143 10;
     r_height := Fin false 2212345 100000; r_vn := (Fin false 1 3, Fin true 1 30000000, Fin false 0 1);
     r_atti := (Fin true 5 10, Fin false 1 4, Fin false 35999999999 100000000); r_mode := 4; r_sensors := 3 |}.

(** * C89 *)
(** text output: one line for each result in order; its thirteen words read back as the values, each to the printed decimals *)
Theorem C89_text : forall raw rs, Forall finite_result rs ->
  Forall2 (fun r line => exists row, numbers line = Some row /\ row_tells r row) rs (text_lines (pva_file raw 1 rs)).
Proof. exact text_back. Qed.
Print Assumptions C89_text.

(** binary output: the structures one after the other *)
Theorem C89_binary : forall raw rs size, (forall r, List.length (raw r) = size) ->
  List.length (pva_file raw 0 rs) = (List.length rs * size)%nat /\
  forall i r, nth_error rs i = Some r -> firstn size (skipn (i * size) (pva_file raw 0 rs)) = raw r.
Proof.
  intros raw rs size Hs. unfold pva_file. change (pva_write raw 0) with raw.
  induction rs as [|r0 rs [L IH]]; [split; [reflexivity|intros [|i] r H; discriminate]|].
  cbn [map List.concat List.length]. rewrite app_length, L, Hs. split; [lia|].
  intros [|i] r H; cbn [nth_error] in H.
  - injection H as ->. simpl. rewrite <- (Hs r). rewrite firstn_app, firstn_all, Nat.sub_diag, firstn_O. apply app_nil_r.
  - specialize (IH i r H). rewrite <- IH. f_equal. simpl. rewrite skipn_app, Hs.
    replace (size + i * size - size)%nat with (i * size)%nat by lia.
    rewrite skipn_all2 by (rewrite Hs; lia). reflexivity.
Qed.
Print Assumptions C89_binary.

(** any other number in the configuration: the file stays empty and nothing is reported *)
Theorem C89_other_REFUTED : forall raw fmt rs, fmt <> 0%Z -> fmt <> 1%Z -> pva_file raw fmt rs = [].
Proof. exact other_empty. Qed.
Print Assumptions C89_other_REFUTED.

Example C89_case : Forall finite_result [sample_result; sample_result] /\
  show (print_result sample_result) =
  "2147 370000.004900 30.500000000000 -114.300000000000 22.1234   0.333333  -0.000000   0.000000  -0.500000   0.250000 360.000000 4 3"%string /\
  numbers (print_result sample_result) <> None.
Proof.
  split; [repeat constructor|]. split; [vm_compute; reflexivity|]. vm_compute. discriminate.
Qed.

(** * C90 *)
(** the queueing writer and the direct one write the same binary file *)
Theorem C90_binary_partial : forall raw doubles kd rs, nav_file raw doubles kd 0 rs = pva_file raw 0 rs.
Proof. exact nav_binary. Qed.
Print Assumptions C90_binary_partial.

(** with the text format, the default of the queueing writer, it writes 168 bytes of binary numbers for every result *)
Theorem C90_text_REFUTED : forall raw doubles kd, (forall r, List.length (doubles r) = 168%nat) ->
  (forall rs, List.length (nav_file raw doubles kd 1 rs) = (168 * List.length rs)%nat) /\
  nav_file raw doubles kd 1 [sample_result] <> pva_file raw 1 [sample_result].
Proof.
  intros raw doubles kd H. assert (G : forall rs, List.length (nav_file raw doubles kd 1 rs) = (168 * List.length rs)%nat).
  { intros rs. rewrite nav_text. induction rs; [reflexivity|]. cbn [map List.concat List.length]. rewrite app_length, H, IHrs. lia. }
  split; [exact G|]. intros E. apply (f_equal (@List.length ascii)) in E. rewrite G in E. vm_compute in E. discriminate.
Qed.
Print Assumptions C90_text_REFUTED.

Example C90_case : exists d : result -> text, forall r, List.length (d r) = 168%nat.
Proof. exists (fun _ => repeat "0"%char 168). intros. apply repeat_length. Qed.

(** * C91 *)
(** the exported file has a header with the names and a row for each record; every cell reads back to six significant digits *)
Theorem C91_csv_partial : forall names times cols,
  (forall n, In n names -> ~ In ","%char n /\ ~ In newline n) ->
  Forall finite times -> (forall c, In c cols -> List.length c = List.length times /\ Forall finite c) ->
  exists t header rows, save2csv names times cols = Some t /\
    text_lines t = header :: rows /\ csv_cells header = str "time" :: names /\
    List.length rows = List.length times /\
    forall i ti, nth_error times i = Some ti -> exists row vs, nth_error rows i = Some row /\ csv_numbers row = Some vs /\
      Forall2 six_digits (num_value ti :: map (fun c => num_value (nth i c (NaN false))) cols) vs.
Proof. exact csv_back. Qed.
Print Assumptions C91_csv_partial.

(** times of week from 100000 s on are exported as whole seconds: recordings with other fractions of seconds give the same file *)
Theorem C91_time_REFUTED : forall names cols times times', Forall2 same_second times times' ->
  save2csv names times cols = save2csv names times' cols.
Proof. exact csv_same_second. Qed.
Print Assumptions C91_time_REFUTED.

(** three records at 200 Hz and three at 2.5 Hz *)
Example C91_case :
  Forall2 same_second [Fin false 74000001 200; Fin false 74000002 200; Fin false 74000003 200]
                      [Fin false 3699996 10; Fin false 3700000 10; Fin false 3700004 10] /\
  option_map show (save2csv [str "x"] [Fin false 74000001 200; Fin false 74000002 200; Fin false 74000003 200]
      [[Fin false 1 3; Fin true 1 8; Fin false 12345678 1]]) =
  Some (String.concat (String newline "") ["time,x,"; "370000,0.333333,"; "370000,-0.125,"; "370000,1.23457e+07,"; ""]%string).
Proof.
  split.
  - repeat constructor; exists 370000; repeat split; try lia; vm_compute; try reflexivity; discriminate.
  - vm_compute. reflexivity.
Qed.

(** * C92 *)
(** names of recordings of one program sort by the time of creation, and different times give different names *)
Theorem C92_order_partial : forall a m1 m2, proper m1 -> proper m2 ->
  name_order (rcd_name a (broken_down m1)) (rcd_name a (broken_down m2)) = time_order m1 m2.
Proof. exact names_sort. Qed.
Print Assumptions C92_order_partial.

(** the name tells year, day and time of day; its month is the one before, 00 for January *)
Theorem C92_month_REFUTED : forall a m, proper m ->
  let s := stamp (prefix_of a) (rcd_name a (broken_down m)) in
  stamp_date s = (m_year m, m_month m - 1, m_day m) /\ stamp_time s = (m_hour m, m_minute m, m_second m) /\
  stamp_date s <> (m_year m, m_month m, m_day m).
Proof.
  intros a m P s. destruct (name_date a m P) as [A B]. fold s in A, B. split; [exact A|]. split; [exact B|].
  rewrite A. destruct P as (_ & M & _). intros E. injection E. lia.
Qed.
Print Assumptions C92_month_REFUTED.

(** program paths of more than 107 characters overrun the buffer *)
Theorem C92_buffer_REFUTED : forall a m, proper m -> rcd_name_fits a (broken_down m) = (List.length (prefix_of a) <=? 107)%nat.
Proof. exact name_fits. Qed.
Print Assumptions C92_buffer_REFUTED.

Example C92_case : let m := {| m_year := 2024; m_month := 1; m_day := 31; m_hour := 9; m_minute := 5; m_second := 0 |} in
  proper m /\ show (rcd_name (Some (str "./PostDataFusion")) (broken_down m)) = "./PostDataFusion.20240031_090500.rcd"%string /\
  rcd_name_fits (Some (repeat "x"%char 120)) (broken_down m) = false.
Proof. split; [unfold proper; simpl; lia|]. split; vm_compute; reflexivity. Qed.
