(** Property theorems C55-C59: the sensor file readers.
    Model: ReaderModel.  Specification: ReaderSpec. *)
From Coq Require Import QArith List Arith Bool ZArith Lia.
From Verif Require FusionSpec MergeProofs.
From Verif Require Import MergeModel ReaderModel ReaderSpec ReaderProofs.
Import ListNotations.

(** * C55  binary IMU files *)
(** one sample per record, nothing added: false for every file of complete records *)
Theorem C55_one_sample_per_record_refuted : forall (B V : Type) (decode : list B -> V) neg f recs fuel,
  Forall whu_record recs -> (length recs < fuel)%nat ->
  read_whu decode neg fuel f (concat recs) =
    Ok (map (fun r => to_frd neg f (meaning decode r)) recs ++
        [{| i_time := Indet; gyro := (Indet, Indet, Indet); acce := (Indet, Indet, Indet) |}]).
Proof. exact @whu_phantom. Qed.
Print Assumptions C55_one_sample_per_record_refuted.
(** for every file contents the reader ends, delivers the complete records in order and exactly one
    extra sample *)
Theorem C55_records_in_order_partial : forall (B V : Type) (decode : list B -> V) neg f file,
  exists recs tail l, file = concat recs ++ tail /\ Forall whu_record recs /\ (length tail < 56)%nat /\
    read_whu decode neg (S (S (length file))) f file = Ok l /\ length l = S (length recs) /\
    firstn (length recs) l = map (fun r => to_frd neg f (meaning decode r)) recs.
Proof. exact @whu_always. Qed.
Print Assumptions C55_records_in_order_partial.
(** what the extra sample holds: a file that breaks off inside a record gives the numbers that are complete, the
    others have no value *)
Theorem C55_broken_record_refuted : forall (B V : Type) (decode : list B -> V) neg recs tail,
  Forall whu_record recs -> (length tail < 56)%nat ->
  exists l x, read_whu decode neg (S (S (length (concat recs ++ tail)))) IMU_FRAME_FRD (concat recs ++ tail) = Ok l /\
    nth_error l (length recs) = Some x /\
    forall k v, nth_error (numbers x) k = Some v ->
      (v = Indet <-> (length tail < 8 * k + 8)%nat) /\
      ((8 * k + 8 <= length tail)%nat -> v = Known (decode (firstn 8 (skipn (8 * k) tail)))).
Proof. exact @whu_broken. Qed.
Print Assumptions C55_broken_record_refuted.
Example C55_nonvacuous : Forall (whu_record (B := nat)) [repeat 1%nat 56; repeat 2%nat 56] /\
  exists l, read_whu (fun l : list nat => list_sum l) (fun x => x) 9 IMU_FRAME_FRD (repeat 1%nat 56 ++ repeat 2%nat 56) = Ok l /\
    map (@i_time nat) l = [Known 8%nat; Known 16%nat; Indet].
Proof. split; [repeat constructor|]. eexists. split; vm_compute; reflexivity. Qed.

(** * C56  text IMU files *)
(** a file of complete lines with a final line end: one sample too many, with no time at all *)
Theorem C56_one_sample_per_line_refuted : forall recs fuel,
  Forall (fun r : list Q => length r = 7%nat) recs -> recs <> [] -> (S (length recs) < fuel)%nat ->
  read_imu_txt fuel true true (nums (concat recs)) =
    Ok (map (map Known) recs ++ [[Indet; Known 0; Known 0; Known 0; Known 0; Known 0; Known 0]]).
Proof. intros recs fuel. exact (imu_txt_ok recs fuel true). Qed.
Print Assumptions C56_one_sample_per_line_refuted.
(** reading ends for every file: false, any token that is not a number makes it endless *)
Theorem C56_reading_ends_refuted : forall fuel blank_end ts, In T_bad ts ->
  read_imu_txt fuel blank_end true ts = Hang.
Proof. intros fuel be ts. exact (imu_txt_bad_hangs fuel be true ts). Qed.
Print Assumptions C56_reading_ends_refuted.
Example C56_header_line : In T_bad (T_bad :: nums [1; 2; 3; 4; 5; 6; 7]).
Proof. left. reflexivity. Qed.
(** without a final line end the samples are exactly the lines *)
Theorem C56_lines_partial : forall recs fuel,
  Forall (fun r : list Q => length r = 7%nat) recs -> recs <> [] -> (S (length recs) < fuel)%nat ->
  read_imu_txt fuel false true (nums (concat recs)) = Ok (map (map Known) recs).
Proof. intros recs fuel F N L. rewrite (imu_txt_ok recs fuel false F N L). now rewrite app_nil_r. Qed.
Print Assumptions C56_lines_partial.
Example C56_nonvacuous : read_imu_txt 9 false true (nums ([1; 2; 3; 4; 5; 6; 7] ++ [8; 9; 10; 11; 12; 13; 14])) =
  Ok [map Known [1; 2; 3; 4; 5; 6; 7]; map Known [8; 9; 10; 11; 12; 13; 14]].
Proof. vm_compute. reflexivity. Qed.

(** * C57  GNSS text files *)
(** a file of correct lines, each ended by a line end: undefined behaviour in every format *)
Theorem C57_terminated_file_refuted :
  (forall gs, (forall g, In g gs -> usable_fix g /\ g_mode g = SPP) ->
     read_gnss GNSS_TXT_POS_7 (map pos7_line gs ++ [[]]) = Undef) /\
  (forall gs w ns, (forall g, In g gs -> usable_fix g) ->
     read_gnss RTKLIB_TXT_POS (map (rtklib_line w ns) gs ++ [[]]) = Undef) /\
  (forall gs w ns s0 s1, (forall g, In g gs -> 0 < g_time g) ->
     read_gnss GNSS_TXT_GGA (map (gga_line w ns s0 s1) gs ++ [[]]) = Undef).
Proof.
  split; [|split].
  - intros gs H. rewrite (read_gnss_lines _ _ (fun g => g)); [now rewrite empty_line_undef|].
    intros g Hg. apply line_pos7; apply H; exact Hg.
  - intros gs w ns H. rewrite (read_gnss_lines _ _ (fun g => g)); [now rewrite empty_line_undef|].
    intros g Hg. apply line_rtklib, H, Hg.
  - intros gs w ns s0 s1 H. rewrite (read_gnss_lines _ _ (gga_result s0 s1)); [now rewrite empty_line_undef|].
    intros g Hg. apply line_gga, H, Hg.
Qed.
Print Assumptions C57_terminated_file_refuted.
(** one line with an unusable fix hides all fixes behind it *)
Theorem C57_bad_line_drops_rest_refuted : forall gs w ns bad rest, (forall g, In g gs -> usable_fix g) ->
  0 < g_time bad -> g_mode bad = 0%Z ->
  read_gnss RTKLIB_TXT_POS (map (rtklib_line w ns) gs ++ rtklib_line w ns bad :: rest) = Ok gs.
Proof. exact bad_line_drops. Qed.
Print Assumptions C57_bad_line_drops_rest_refuted.
(** the format GNSS_10_LINES cannot be read at all *)
Theorem C57_ten_lines_refuted : forall line rest, read_gnss GNSS_10_LINES (line :: rest) = Undef.
Proof. reflexivity. Qed.
Print Assumptions C57_ten_lines_refuted.
(** a line that breaks off is delivered as a fix with zeros for what is missing *)
Theorem C57_truncated_line_refuted : forall t lat lon h s0 s1 s2 k, 0 < t -> (1 <= k <= 6)%nat ->
  let numbers := [t; lat; lon; h; s0; s1; s2] in
  exists g, read_gnss GNSS_TXT_POS_7 [nums (firstn k numbers)] = Ok [g] /\ g_mode g = SPP /\
    [g_time g; g_lat g; g_lon g; g_height g] ++ std_list g = firstn k numbers ++ repeat 0 (7 - k).
Proof.
  intros t lat lon h s0 s1 s2 k Ht Hk numbers. assert (Hx : Qltb 0 t = true) by (apply MergeProofs.Qltb_lt; exact Ht).
  assert (C : k = 1%nat \/ k = 2%nat \/ k = 3%nat \/ k = 4%nat \/ k = 5%nat \/ k = 6%nat) by lia.
  unfold numbers. destruct C as [-> | [-> | [-> | [-> | [-> | ->]]]]]; cbn [firstn nums map read_gnss];
    unfold parse_line; cbn [zeros repeat extract]; unfold accept; cbn [r_time r_mode nth]; rewrite Hx; eexists; (split; [reflexivity|]); split; reflexivity.
Qed.
Print Assumptions C57_truncated_line_refuted.
(** and a word in the place of a number gives a zero there and zeros behind it *)
Theorem C57_word_in_line_refuted : forall t lat lon h s0 s1 s2 k rest, 0 < t -> (1 <= k <= 6)%nat ->
  let numbers := [t; lat; lon; h; s0; s1; s2] in
  exists g, read_gnss GNSS_TXT_POS_7 [nums (firstn k numbers) ++ T_bad :: rest] = Ok [g] /\ g_mode g = SPP /\
    [g_time g; g_lat g; g_lon g; g_height g] ++ std_list g = firstn k numbers ++ repeat 0 (7 - k).
Proof.
  intros t lat lon h s0 s1 s2 k rest Ht Hk numbers. assert (Hx : Qltb 0 t = true) by (apply MergeProofs.Qltb_lt; exact Ht).
  assert (C : k = 1%nat \/ k = 2%nat \/ k = 3%nat \/ k = 4%nat \/ k = 5%nat \/ k = 6%nat) by lia.
  unfold numbers. destruct C as [-> | [-> | [-> | [-> | [-> | ->]]]]]; cbn [firstn nums map app read_gnss];
    unfold parse_line; cbn [zeros repeat extract]; unfold accept; cbn [r_time r_mode nth]; rewrite Hx; eexists; (split; [reflexivity|]); split; reflexivity.
Qed.
Print Assumptions C57_word_in_line_refuted.
(** without a final line end all fixes are delivered unchanged, in order *)
Theorem C57_all_fixes_partial :
  (forall gs, (forall g, In g gs -> usable_fix g /\ g_mode g = SPP) ->
     read_gnss GNSS_TXT_POS_7 (map pos7_line gs) = Ok gs) /\
  (forall gs w ns, (forall g, In g gs -> usable_fix g) ->
     read_gnss RTKLIB_TXT_POS (map (rtklib_line w ns) gs) = Ok gs) /\
  (forall gs w ns s0 s1, (forall g, In g gs -> 0 < g_time g) ->
     exists out, read_gnss GNSS_TXT_GGA (map (gga_line w ns s0 s1) gs) = Ok out /\
       Forall2 (fun g o => g_time o = g_time g /\ g_lat o = g_lat g /\ g_lon o = g_lon g /\
                  g_height o = g_height g /\
                  g_mode o = (if (Z.eqb (g_mode g) 4 || Z.eqb (g_mode g) 5 || Z.eqb (g_mode g) 1)%bool
                              then g_mode g else INVALID)) gs out).
Proof. exact all_fixes. Qed.
Print Assumptions C57_all_fixes_partial.
Definition a_fix : gnss_data :=
  {| g_time := 100; g_lat := 30; g_lon := 114; g_height := 20; g_std := (1, 1, 2); g_mode := 1 |}.
Example C57_nonvacuous : usable_fix a_fix /\ g_mode a_fix = SPP.
Proof. split; [split; reflexivity|reflexivity]. Qed.

(** * C58  the quality of a fix reaches the filter *)
Theorem C58_quality_reaches_filter_refuted : forall g, g_mode (to_rgioe g) = SPP /\ FusionSpec.fix_mode (g_mode (to_rgioe g)) = true.
Proof. intro g. split; reflexivity. Qed.
Print Assumptions C58_quality_reaches_filter_refuted.
(** in particular a line the reader marks INVALID, which the filter would reject, is accepted *)
Theorem C58_invalid_fix_is_used : exists line g, read_gnss GNSS_TXT_GGA [line] = Ok [g] /\ g_mode g = INVALID /\
  FusionSpec.fix_mode (g_mode g) = false /\ FusionSpec.fix_mode (g_mode (to_rgioe g)) = true.
Proof.
  exists (nums [2000; 100; 30; 114; 20; 1; 1; 2; 9]). eexists. split; [vm_compute; reflexivity|].
  repeat split; reflexivity.
Qed.
Print Assumptions C58_invalid_fix_is_used.
(** everything else is passed on *)
Theorem C58_rest_is_passed_partial : forall g, let r := to_rgioe g in
  g_time r = g_time g /\ g_lat r = g_lat g /\ g_lon r = g_lon g /\ g_height r = g_height g /\ g_std r = g_std g.
Proof. intro g. repeat split. Qed.
Print Assumptions C58_rest_is_passed_partial.

(** * C59  axes conversion *)
Theorem C59_axes_involution : forall (V : Type) (neg : V -> V) v, (forall x, neg (neg x) = x) ->
  swap_axes neg (swap_axes neg v) = v.
Proof. exact @swap_involutive. Qed.
Print Assumptions C59_axes_involution.
(** for numbers it is a proper rotation: lengths and orientation (cross product) are kept *)
Theorem C59_axes_rotation : forall a b a' b' c', swap_axes Z.opp (ints a) = ints a' ->
  swap_axes Z.opp (ints b) = ints b' -> swap_axes Z.opp (ints (crossZ a b)) = ints c' ->
  dotZ a' b' = dotZ a b /\ crossZ a' b' = c'.
Proof. exact axes_rotation. Qed.
Print Assumptions C59_axes_rotation.
(** both vectors of a sample are converted when the file says right-front-up, nothing is touched otherwise *)
Theorem C59_whole_sample : forall (V : Type) (neg : V -> V) t g1 g2 g3 a1 a2 a3,
  let d := {| i_time := t; gyro := (g1, g2, g3); acce := (a1, a2, a3) |} in
  to_frd neg IMU_FRAME_FRD d = d /\
  i_time (to_frd neg IMU_FRAME_RFU d) = t /\
  gyro (to_frd neg IMU_FRAME_RFU d) = swap_axes neg (g1, g2, g3) /\
  acce (to_frd neg IMU_FRAME_RFU d) = swap_axes neg (a1, a2, a3).
Proof. intros. repeat split. Qed.
Print Assumptions C59_whole_sample.
(** in words: front is the old second axis, right the old first, down the old third with the sign changed *)
Theorem C59_axes_meaning : forall (V : Type) (neg : V -> V) x y z,
  swap_axes neg (Known x, Known y, Known z) = (Known y, Known x, Known (neg z)).
Proof. reflexivity. Qed.
Print Assumptions C59_axes_meaning.
Example C59_nonvacuous : swap_axes Z.opp (ints (1, 2, 3)%Z) = ints (2, 1, -3)%Z.
Proof. reflexivity. Qed.
