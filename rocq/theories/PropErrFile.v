(** C168: the error file of the evaluation. Model: ErrFileModel, EvalModel. Specification: EvalSpec and here. *)
From Coq Require Import Reals List String Lra Lia.
From Verif Require EarthModel EarthProofs MathWrap.
From Verif Require Import EvalModel EvalSpec EvalProofs EvalStat EvalCheck PropEval ErrFileModel.
Import ListNotations.
Open Scope R_scope.

(** the cell of a row under a name of the header *)
Definition under (name : string) (cells : list sample) : option sample :=
  match find (fun p => String.eqb (fst p) name) (combine err_names cells) with Some p => Some (snd p) | None => None end.

(** the file has one row for each row of the solution strictly between the first and the last time of the reference, in order; it has
    the names of the header *)
Theorem C168_rows : forall d2 d3 target ref file, err_file d2 d3 target ref = Some file ->
  Forall2 (fun r cells => under "gpst" cells = Some (Val (r_t r)) /\ List.length cells = List.length err_names)
    (common target ref) file.
Proof.
  intros d2 d3 target ref file H. unfold err_file in H. destruct (common target ref) as [|r0 l]; [discriminate|].
  assert (E : map (err_cells d2 d3 ref) (r0 :: l) = file) by congruence. rewrite <- E. generalize (r0 :: l). clear. intros k.
  induction k as [|r k IH]; cbn [map]; constructor; [split; reflexivity|exact IH].
Qed.
Print Assumptions C168_rows.

(** height, speeds, roll, pitch, heading, horizontal and spatial error are what their names say *)
Theorem C168_cells_partial : forall d2 d3 target ref file, ascending ref -> err_file d2 d3 target ref = Some file ->
  Forall2 (fun r cells => forall a b, around ref a b (r_t r) ->
    under "h" cells = Some (Val (above a b r)) /\
    under "vx" cells = Some (Val (r_v0 r - at_time r_v0 a b (r_t r))) /\
    under "vy" cells = Some (Val (r_v1 r - at_time r_v1 a b (r_t r))) /\
    under "vz" cells = Some (Val (r_v2 r - at_time r_v2 a b (r_t r))) /\
    under "roll" cells = Some (Val (r_roll r - at_time r_roll a b (r_t r))) /\
    under "pitch" cells = Some (Val (r_pitch r - at_time r_pitch a b (r_t r))) /\
    (exists d e, same_angle d (r_yaw b - r_yaw a) /\ -180 <= d <= 180 /\ under "yaw" cells = Some (Val e) /\ -180 <= e <= 180 /\
       same_angle e (r_yaw r - (r_yaw a + d * part a b (r_t r)))) /\
    (d2 = true -> under "2d" cells = Some (Val (sqrt (east_of a b r ^ 2 + north_of a b r ^ 2)))) /\
    (d3 = true -> under "3d" cells = Some (Val (sqrt (east_of a b r ^ 2 + north_of a b r ^ 2 + above a b r ^ 2)))))
    (common target ref) file.
Proof.
  intros d2 d3 target ref file S H. unfold err_file in H. destruct (common target ref) as [|r0 l]; [discriminate|].
  assert (E : map (err_cells d2 d3 ref) (r0 :: l) = file) by congruence. rewrite <- E. generalize (r0 :: l). clear E H. intros k.
  induction k as [|r k IH]; cbn [map]; constructor; [|exact IH]. intros a b A.
  destruct (C142_errors_partial ref a b r S A) as (_ & _ & E3 & E4 & E5 & E6 & E7 & E8 & E9 & E10).
  destruct (C141_heading ref a b r S A) as (d & e & D1 & D2 & D3 & D4 & D5).
  unfold under. cbn [err_names err_cells combine find fst snd]. cbn [String.eqb Ascii.eqb Bool.eqb].
  rewrite E3, E4, E5, E6, E7, E8, D3.
  repeat (split; [reflexivity|]). split; [exists d, e; auto|]. split; intros ->; [rewrite E9|rewrite E10]; reflexivity.
Qed.
Print Assumptions C168_cells_partial.

(** the two horizontal errors are exchanged: the east error is under the name of the latitude, the north error under that of the longitude *)
Theorem C168_exchanged_REFUTED : forall d2 d3 target ref file, ascending ref -> err_file d2 d3 target ref = Some file ->
  Forall2 (fun r cells => forall a b, around ref a b (r_t r) ->
    under "lat" cells = Some (Val (east_of a b r)) /\ under "lon" cells = Some (Val (north_of a b r)))
    (common target ref) file.
Proof.
  intros d2 d3 target ref file S H. unfold err_file in H. destruct (common target ref) as [|r0 l]; [discriminate|].
  assert (E : map (err_cells d2 d3 ref) (r0 :: l) = file) by congruence. rewrite <- E. generalize (r0 :: l). clear E H. intros k.
  induction k as [|r k IH]; cbn [map]; constructor; [|exact IH]. intros a b A.
  destruct (C142_errors_partial ref a b r S A) as (E1 & E2 & _).
  unfold under. cbn [err_names err_cells combine find fst snd]. cbn [String.eqb Ascii.eqb Bool.eqb]. rewrite E1, E2. split; reflexivity.
Qed.
Print Assumptions C168_exchanged_REFUTED.

(** a solution one degree too far north: the file says that the latitude is right and the longitude wrong *)
Definition north_case : list row := [Row 5 1 0 0 0 0 0 0 0 0].
Theorem C168_latitude_REFUTED : ascending (ref_case 0) /\ exists cells n, err_file true true north_case (ref_case 0) = Some [cells] /\
  under "lat" cells = Some (Val 0) /\ under "lon" cells = Some (Val n) /\ 100000 < n.
Proof.
  split; [apply ref_case_ascending|].
  assert (C : common north_case (ref_case 0) = north_case).
  { unfold common, ref_case, north_case. cbn [last r_t filter].
    repeat (match goal with |- context [Rlt_dec ?a ?b] => destruct (Rlt_dec a b); [|lra] end). reflexivity. }
  assert (F : err_file true true north_case (ref_case 0) = Some (map (err_cells true true (ref_case 0)) north_case)).
  { unfold err_file. rewrite C. reflexivity. }
  pose proof (C168_exchanged_REFUTED _ _ _ _ _ (ref_case_ascending 0) F) as X. rewrite C in X. unfold north_case in X. cbn [map] in X.
  inversion X as [|? ? ? ? Y _]; subst. specialize (Y _ _ (ref_case_around 0 5 ltac:(lra))). destruct Y as [Y1 Y2].
  exists (err_cells true true (ref_case 0) (Row 5 1 0 0 0 0 0 0 0 0)), (north_of (Row 0 0 0 0 0 0 0 0 0 350) (Row 10 0 0 0 0 0 0 0 0 10) (Row 5 1 0 0 0 0 0 0 0 0)).
  split; [exact F|]. split; [|split; [exact Y2|]].
  - etransitivity; [exact Y1|]. do 2 f_equal. unfold east_of, at_time. cbn [r_lat r_lon r_t]. ring.
  - unfold north_of. replace (r_lat _ - at_time r_lat _ _ _) with 1 by (unfold at_time; cbn [r_lat r_t]; ring).
    match goal with |- _ < 1 * (PI / 180) * ?m => assert (6335000 <= m) end.
    { eapply Rle_trans; [|apply (proj1 (EarthProofs.RM_bounds _))]. unfold EarthModel.semi_major, EarthModel.e2. lra. }
    pose proof MathWrap.PI_gt_3. nra.
Qed.
Print Assumptions C168_latitude_REFUTED.

(** the column of the week is zero in every row *)
Theorem C168_week_REFUTED : forall d2 d3 target ref file, err_file d2 d3 target ref = Some file ->
  Forall (fun cells => under "week" cells = Some (Val 0)) file.
Proof.
  intros d2 d3 target ref file H. unfold err_file in H. destruct (common target ref) as [|r0 l]; [discriminate|].
  assert (E : map (err_cells d2 d3 ref) (r0 :: l) = file) by congruence. rewrite <- E. generalize (r0 :: l). clear. intros k.
  induction k as [|r k IH]; cbn [map]; constructor; [reflexivity|exact IH].
Qed.
Print Assumptions C168_week_REFUTED.

(** when they were not asked for, the horizontal and spatial errors are not zero but no number *)
Theorem C168_not_asked : forall d2 d3 target ref file, err_file d2 d3 target ref = Some file ->
  Forall (fun cells => (d2 = false -> under "2d" cells = Some NotANumber) /\ (d3 = false -> under "3d" cells = Some NotANumber)) file.
Proof.
  intros d2 d3 target ref file H. unfold err_file in H. destruct (common target ref) as [|r0 l]; [discriminate|].
  assert (E : map (err_cells d2 d3 ref) (r0 :: l) = file) by congruence. rewrite <- E. generalize (r0 :: l). clear. intros k.
  induction k as [|r k IH]; cbn [map]; constructor; [split; intros ->; reflexivity|exact IH].
Qed.
Print Assumptions C168_not_asked.

(** no file without a common time; a file with one *)
Theorem C168_written : forall d2 d3 target ref a, hd_error ref = Some a ->
  ((exists file, err_file d2 d3 target ref = Some file) <-> exists r, In r target /\ r_t a < r_t r < r_t (last ref a)).
Proof.
  intros d2 d3 target ref a H. unfold err_file. split.
  - intros (file & E). destruct (common target ref) as [|r l] eqn:C; [discriminate|]. exists r.
    apply (C142_rows target ref a H). rewrite C. left. reflexivity.
  - intros (r & I). apply (C142_rows target ref a H) in I. destruct (common target ref) as [|r0 l]; [destruct I|]. eexists. reflexivity.
Qed.
Print Assumptions C168_written.

(** the file of errors of 10, 10, 10 and 1000 metres *)
Example C168_case : ascending (ref_case 0) /\ (exists file, err_file true true off_case (ref_case 0) = Some file /\ List.length file = 4%nat) /\
  forall r, In r (common off_case (ref_case 0)) -> exists a b, around (ref_case 0) a b (r_t r).
Proof.
  split; [apply ref_case_ascending|]. split; [|intros r I; exact (common_around _ _ _ I)].
  unfold err_file. rewrite off_common. eexists. split; reflexivity.
Qed.
