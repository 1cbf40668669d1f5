(** C167: the scripts that show a result file. Models: ViewModel, TextModel, PyTextModel. Specification: TextSpec ([decimals]) and here. *)
From Coq Require Import List NArith ZArith QArith Qabs Ascii String Bool Lia.
From Verif Require Import TextModel TextSpec TextProofs TextProofsG TextMain HelperProofs PyTextModel PyTextProofs PropText PropPyText ViewModel ViewProofs.
Import ListNotations.
Open Scope list_scope.

(** the meaning of the bits of the 25th number of a line, in the order in which the kinds are drawn: samples, fixes, wheel speeds,
    standstill, constraint on sideways motion, pressure; each at its height *)
Definition kinds : list (Z * Z) := [(0, 1); (1, 2); (2, 3); (3, 4); (4, 5); (7, 6)]%Z.
(** the times at which a kind was used, in the order of the lines *)
Definition used (bit height : Z) (rows : list (list Q)) : list (Q * Z) :=
  map (fun r => (nth 1 r 0%Q, height)) (filter (fun r => Z.testbit (to_int (nth 24 r 0%Q)) bit) rows).

(** a table with at least 25 columns: the script draws, for each kind, the times of the lines that have its bit, and nothing else *)
Theorem C167_sensors : forall t rows, loadtxt t = Some (Table rows) -> Forall (fun r => (25 <= List.length r)%nat) rows ->
  show_sensors t = Some (map (fun k => used (fst k) (snd k) rows) kinds).
Proof.
  intros t rows H F. unfold show_sensors. rewrite H.
  rewrite column_some by (eapply Forall_impl; [|exact F]; cbn; intros; lia).
  rewrite column_some by (eapply Forall_impl; [|exact F]; cbn; intros; lia).
  unfold drawn, kinds, used. cbn [map fst snd]. f_equal.
  rewrite <- (points_spec 0), <- (points_spec 1), <- (points_spec 2), <- (points_spec 3), <- (points_spec 4), <- (points_spec 7) by lia.
  reflexivity.
Qed.
Print Assumptions C167_sensors.

(** a table with at least 20 columns: numbers 2, 12 to 14, 15 to 17 and 20 of every line *)
Theorem C167_bias : forall t rows, loadtxt t = Some (Table rows) -> Forall (fun r => (20 <= List.length r)%nat) rows ->
  let n k r := nth k r 0%Q in
  show_bias t = Some (map (n 1%nat) rows, map (fun r => [n 11%nat r; n 12%nat r; n 13%nat r]) rows,
                      map (fun r => [n 14%nat r; n 15%nat r; n 16%nat r]) rows, map (n 19%nat) rows).
Proof.
  intros t rows H F n. unfold show_bias. rewrite H.
  rewrite column_some by (eapply Forall_impl; [|exact F]; cbn; intros; lia).
  rewrite column_some by (eapply Forall_impl; [|exact F]; cbn; intros; lia).
  assert (S : slice 11 14 rows = map (fun r => [n 11%nat r; n 12%nat r; n 13%nat r]) rows /\
              slice 14 17 rows = map (fun r => [n 14%nat r; n 15%nat r; n 16%nat r]) rows).
  { unfold slice, n. split; apply map_ext_in; intros r I; rewrite Forall_forall in F; specialize (F r I);
      do 20 (destruct r as [|? r]; [cbn in F; lia|]); reflexivity. }
  destruct S as [-> ->]. reflexivity.
Qed.
Print Assumptions C167_bias.

Lemma table_lines {A} (f : A -> text) n (rs : list A) : (forall r, In r rs -> ~ In newline (f r)) ->
  Forall (fun r => exists row, numbers (f r) = Some row /\ List.length row = n) rs ->
  exists rows, Forall2 (fun l row => numbers l = Some row) (map f rs) rows /\ Forall (fun row => List.length row = n) rows.
Proof.
  intros _ F. induction F as [|r rs (row & E & L) _ (rows & A1 & A2)]; [exists []; split; constructor|].
  exists (row :: rows). cbn [map]. split; constructor; assumption.
Qed.

(** the file that the library writes has thirteen columns: neither script shows it *)
Theorem C167_library_REFUTED : forall raw rs, Forall finite_result rs ->
  show_sensors (pva_file raw 1 rs) = None /\ show_bias (pva_file raw 1 rs) = None.
Proof.
  intros raw rs F. unfold pva_file. change (map (pva_write raw 1) rs) with (map (fun r => print_result r ++ [newline]) rs).
  rewrite <- (map_map print_result (fun l => l ++ [newline])).
  destruct (table_lines print_result 13 rs) as (rows & A & B).
  { intros; apply result_nl. }
  { eapply Forall_impl; [|exact F]. cbn. intros r Fr. destruct (result_back r Fr) as (row & E & T). exists row. split; [exact E|].
    unfold row_tells in T. destruct (r_vn r) as [[v1 v2] v3], (r_atti r) as [[a1 a2] a3].
    do 14 (destruct row as [|? row]; [try contradiction; reflexivity|]). contradiction. }
  assert (N : forall l, In l (map print_result rs) -> ~ In newline l).
  { intros l I. apply in_map_iff in I. destruct I as (r & <- & _). apply result_nl. }
  destruct (few_columns 13 _ rows N ltac:(lia) A B) as [C D]. split; [apply C|apply D]; lia.
Qed.
Print Assumptions C167_library_REFUTED.

(** the file that the Python tools write has seventeen columns: neither script shows it *)
Theorem C167_python_REFUTED : forall ps, Forall writable ps -> show_sensors (py_file ps) = None /\ show_bias (py_file ps) = None.
Proof.
  intros ps F. unfold py_file.
  rewrite <- (map_map py_line (fun l => l ++ [newline])).
  destruct (table_lines py_line 17 ps) as (rows & A & B).
  { intros; apply line_nl. }
  { eapply Forall_impl; [|exact F]. cbn. intros p (F1 & F2 & F3). destruct (line_back p F1 F2 F3) as (w & row & E & _ & T).
    exists (w :: row). split; [exact E|]. cbn [List.length]. f_equal.
    assert (L : forall A B (R : A -> B -> Prop) a b, Forall2 R a b -> List.length a = List.length b) by (induction 1; cbn; congruence).
    unfold told in T. rewrite <- (L _ _ _ _ _ T), combine_length. unfold values.
    destruct (p_vn p) as [[v1 v2] v3], (p_att p) as [[a1 a2] a3], (p_gb p) as [[g1 g2] g3], (p_ab p) as [[b1 b2] b3]. reflexivity. }
  assert (N : forall l, In l (map py_line ps) -> ~ In newline l).
  { intros l I. apply in_map_iff in I. destruct I as (r & <- & _). apply line_nl. }
  destruct (few_columns 17 _ rows N ltac:(lia) A B) as [C D]. split; [apply C|apply D]; lia.
Qed.
Print Assumptions C167_python_REFUTED.

(** a point of the comparison: time and heading of a result to six decimals *)
Definition shows (r : result) (p : Q * Q) : Prop :=
  decimals 6 (num_value (r_gpst r)) (fst p) /\ decimals 6 (num_value (snd (r_atti r))) (snd p).

Lemma curve_file raw rs : Forall finite_result rs -> (2 <= List.length rs)%nat ->
  exists c, curve (loadtxt (pva_file raw 1 rs)) = Some c /\ Forall2 shows rs c.
Proof.
  intros F H2. unfold pva_file. change (map (pva_write raw 1) rs) with (map (fun r => print_result r ++ [newline]) rs).
  rewrite <- (map_map print_result (fun l => l ++ [newline])).
  assert (G : exists rows, Forall2 (fun l row => numbers l = Some row) (map print_result rs) rows /\ Forall (fun row => List.length row = 13%nat) rows /\
    Forall2 row_tells rs rows).
  { clear H2. induction F as [|r rs Fr _ (rows & A & B & C)]; [exists []; repeat split; constructor|].
    destruct (result_back r Fr) as (row & E & T). exists (row :: rows). cbn [map].
    split; [constructor; assumption|]. split; [|constructor; assumption]. constructor; [|exact B].
    unfold row_tells in T. destruct (r_vn r) as [[v1 v2] v3], (r_atti r) as [[a1 a2] a3].
    do 14 (destruct row as [|? row]; [try contradiction; reflexivity|]). contradiction. }
  destruct G as (rows & A & B & C).
  rewrite (loadtxt_lines 13 _ rows) ; [|intros l I; apply in_map_iff in I; destruct I as (r & <- & _); apply result_nl|lia|exact A|exact B].
  assert (L : List.length rows = List.length rs) by (clear - C; induction C; cbn; congruence).
  destruct rows as [|a [|b rows]]; [cbn in L; lia|cbn in L; lia|]. unfold curve.
  rewrite column_some by (eapply Forall_impl; [|exact B]; cbn; intros; lia).
  rewrite column_some by (eapply Forall_impl; [|exact B]; cbn; intros; lia).
  eexists. split; [reflexivity|]. revert C. generalize (a :: b :: rows). clear. intros rows C.
  induction C as [|r row rs rows T _ IH]; cbn [map combine]; constructor; [|exact IH].
  unfold row_tells in T. unfold shows. cbn [fst snd]. destruct (r_vn r) as [[v1 v2] v3], (r_atti r) as [[a1 a2] a3].
  do 13 (destruct row as [|? row]; [contradiction|]). destruct row; [|contradiction]. cbn [nth snd]. tauto.
Qed.

(** the comparison of two files of the library, each with at least two results: time and heading of every result *)
Theorem C167_compare_partial : forall raw rs1 rs2, Forall finite_result rs1 -> Forall finite_result rs2 ->
  (2 <= List.length rs1)%nat -> (2 <= List.length rs2)%nat ->
  exists c1 c2, nav_compare (pva_file raw 1 rs1) (pva_file raw 1 rs2) = Some (c1, c2) /\ Forall2 shows rs1 c1 /\ Forall2 shows rs2 c2.
Proof.
  intros raw rs1 rs2 F1 F2 L1 L2. destruct (curve_file raw rs1 F1 L1) as (c1 & E1 & S1), (curve_file raw rs2 F2 L2) as (c2 & E2 & S2).
  exists c1, c2. unfold nav_compare. rewrite E1, E2. auto.
Qed.
Print Assumptions C167_compare_partial.

(** a file with one result is not shown *)
Theorem C167_one_result_REFUTED : forall raw r t, finite_result r -> nav_compare (pva_file raw 1 [r]) t = None.
Proof.
  intros raw r t F. unfold pva_file. change (map (pva_write raw 1) [r]) with (map (fun l => l ++ [newline]) [print_result r]).
  destruct (result_back r F) as (row & E & T).
  unfold nav_compare. rewrite (loadtxt_lines (List.length row) _ [row]).
  - reflexivity.
  - intros l [<-|[]]. apply result_nl.
  - unfold row_tells in T. destruct (r_vn r) as [[v1 v2] v3], (r_atti r) as [[a1 a2] a3]. destruct row; [contradiction|cbn; lia].
  - constructor; [exact E|constructor].
  - constructor; [reflexivity|constructor].
Qed.
Print Assumptions C167_one_result_REFUTED.

(** a file of two lines with 25 numbers: a sample at 10 s, a sample and a fix at 11.5 s, with a pressure; and a case of each of the others *)
Example C167_case :
  let line time bits := str "2100 " ++ str time ++ str " 0 0 0 0 0 0 0 0 0 0 0 0 0 0 0 0 0 0 0 0 0 0 " ++ str bits ++ [newline] in
  let t := line "10.0"%string "1"%string ++ line "11.5"%string "131"%string in
  exists rows, loadtxt t = Some (Table rows) /\ Forall (fun r => (25 <= List.length r)%nat) rows /\
    map (fun k => List.length (used (fst k) (snd k) rows)) kinds = [2; 1; 0; 0; 0; 1]%nat.
Proof. eexists. split; [vm_compute; reflexivity|]. split; [repeat constructor|]. vm_compute. reflexivity. Qed.
Example C167_case2 : Forall finite_result [sample_result; sample_result] /\ (2 <= List.length [sample_result; sample_result])%nat /\
  exists c, nav_compare (pva_file (fun _ => []) 1 [sample_result; sample_result]) (pva_file (fun _ => []) 1 [sample_result; sample_result]) = Some c.
Proof. split; [repeat constructor|]. split; [cbn; lia|]. eexists. vm_compute. reflexivity. Qed.
