(** The comparison of a solution with a reference (Tools/ErrorAnalyse.py): C141 to C144. *)
From Coq Require Import Reals List Lra.
From Verif Require Import EvalModel EvalSpec EvalProofs EvalStat EvalCheck.
Import ListNotations.
Open Scope R_scope.

(** ** C141: the heading error is the angle, between -180 and 180 degrees, from the reference, turned steadily the shorter way between its
    neighbouring rows, to the solution *)
Theorem C141_heading : forall ref a b r, ascending ref -> around ref a b (r_t r) -> exists d e,
  same_angle d (r_yaw b - r_yaw a) /\ -180 <= d <= 180 /\
  err_yaw ref r = Val e /\ -180 <= e <= 180 /\ same_angle e (r_yaw r - (r_yaw a + d * part a b (r_t r))).
Proof. exact yaw_error. Qed.
Print Assumptions C141_heading.
(** a reference that turns from 350 to 10 degrees is at 0 halfway: a heading of 355 is wrong by -5 *)
Example C141_case : ascending (ref_case 0) /\ (exists a b, around (ref_case 0) a b 5) /\ err_yaw (ref_case 0) (Row 5 0 0 0 0 0 0 0 0 355) = Val (-5).
Proof. split; [apply ref_case_ascending|]. split; [eexists; eexists; apply ref_case_around; lra|exact heading_case]. Qed.

(** ** C142: the errors are solution minus reference at the time of the row, position in metres east, north and up *)
Theorem C142_errors_partial : forall ref a b r, ascending ref -> around ref a b (r_t r) ->
  err_2 ref r = Val (east_of a b r) /\ err_3 ref r = Val (north_of a b r) /\ err_plain r_h ref r = Val (above a b r) /\
  err_plain r_v0 ref r = Val (r_v0 r - at_time r_v0 a b (r_t r)) /\ err_plain r_v1 ref r = Val (r_v1 r - at_time r_v1 a b (r_t r)) /\
  err_plain r_v2 ref r = Val (r_v2 r - at_time r_v2 a b (r_t r)) /\ err_plain r_roll ref r = Val (r_roll r - at_time r_roll a b (r_t r)) /\
  err_plain r_pitch ref r = Val (r_pitch r - at_time r_pitch a b (r_t r)) /\
  err_2d ref r = Val (sqrt (east_of a b r ^ 2 + north_of a b r ^ 2)) /\
  err_3d ref r = Val (sqrt (east_of a b r ^ 2 + north_of a b r ^ 2 + above a b r ^ 2)).
Proof.
  intros ref a b r S A. split; [apply err_2_is; assumption|]. split; [apply err_3_is; assumption|]. split; [apply err_plain_is; assumption|].
  split; [apply err_plain_is; assumption|]. split; [apply err_plain_is; assumption|]. split; [apply err_plain_is; assumption|].
  split; [apply err_plain_is; assumption|]. split; [apply err_plain_is; assumption|].
  split; [apply err_2d_is; assumption|apply err_3d_is; assumption].
Qed.
Print Assumptions C142_errors_partial.
(** away from the poles the spatial error is zero for the same latitude, longitude and height only *)
Theorem C142_zero_partial : forall ref a b r, ascending ref -> around ref a b (r_t r) -> -90 < at_time r_lat a b (r_t r) < 90 ->
  (err_3d ref r = Val 0 <-> r_lat r = at_time r_lat a b (r_t r) /\ r_lon r = at_time r_lon a b (r_t r) /\ r_h r = at_time r_h a b (r_t r)).
Proof. exact spatial_zero. Qed.
Print Assumptions C142_zero_partial.
(** every row of the solution between the first and the last time of the reference is compared, and no other *)
Theorem C142_rows : forall target ref a, hd_error ref = Some a -> forall r, In r (common target ref) <-> In r target /\ r_t a < r_t r < r_t (last ref a).
Proof.
  intros target [|b l] a H r; [discriminate|]. injection H as ->. unfold common. rewrite filter_In.
  destruct (Rlt_dec (r_t r) (r_t (last (a :: l) a))), (Rlt_dec (r_t a) (r_t r)); intuition (try discriminate; try lra).
Qed.
Print Assumptions C142_rows.
(** the printed rms is the quadratic mean of the errors, between the smallest and the largest of them in size *)
Theorem C142_rms : forall l, l <> [] -> 0 <= rms l /\ rms l * rms l * INR (length l) = squares l /\
  forall lo hi, extremes lo hi (map Rabs l) -> lo <= rms l <= hi.
Proof. exact rms_is. Qed.
Print Assumptions C142_rms.
(** the same place has two longitudes, 180 and -180 degrees: the error is the circumference of the earth *)
Theorem C142_antimeridian_refuted : exists ref a b r, ascending ref /\ around ref a b (r_t r) /\
  r_lat r = at_time r_lat a b (r_t r) /\ same_angle (r_lon r) (at_time r_lon a b (r_t r)) /\ r_h r = at_time r_h a b (r_t r) /\
  err_3d ref r = Val (2 * PI * 6378137).
Proof.
  exists (ref_case 180). eexists. eexists. exists (Row 5 0 (-180) 0 0 0 0 0 0 0). split; [apply ref_case_ascending|].
  split; [apply (ref_case_around 180 5); lra|]. unfold at_time. cbn [r_lat r_lon r_h r_t].
  split; [lra|]. split; [exists (-1)%Z; lra|]. split; [lra|exact antimeridian].
Qed.
Print Assumptions C142_antimeridian_refuted.
Example C142_case : ascending (ref_case 0) /\ (exists a b, around (ref_case 0) a b 5 /\ -90 < at_time r_lat a b 5 < 90) /\ common off_case (ref_case 0) = off_case.
Proof.
  split; [apply ref_case_ascending|]. split; [|exact off_common]. eexists; eexists; split; [apply ref_case_around; lra|]. unfold at_time. cbn [r_lat]. lra.
Qed.

(** ** C143: when the check succeeds, 95.44 % of the horizontal and of the spatial errors are within the limits, up to the width of a bin - or
    more than 68.26 % of them are in the first bin *)
Theorem C143_share_partial : forall ref target lim2 lim3, ascending ref -> 0 <= lim2 -> 0 <= lim3 -> check target ref lim2 lim3 = 0%nat ->
  common target ref <> [] /\
  forall e2 e3 lo2 hi2 lo3 hi3, Forall2 (horizontal ref) (common target ref) e2 -> Forall2 (spatial ref) (common target ref) e3 ->
    extremes lo2 hi2 e2 -> extremes lo3 hi3 e3 ->
    let n := Nat.max (length target / 500) 100 in
    (crowded lo2 hi2 n e2 \/ 9544 / 10000 * INR (length e2) <= not_above (lim2 + width lo2 hi2 n) e2) /\
    (crowded lo3 hi3 n e3 \/ 9544 / 10000 * INR (length e3) <= not_above (lim3 + width lo3 hi3 n) e3).
Proof. exact check_pass. Qed.
Print Assumptions C143_share_partial.
(** when it fails, one of the two shares is missed, up to the width of a bin *)
Theorem C143_fails : forall ref target lim2 lim3 e2 e3 lo2 hi2 lo3 hi3, ascending ref -> 0 <= lim2 -> 0 <= lim3 -> common target ref <> [] ->
  Forall2 (horizontal ref) (common target ref) e2 -> Forall2 (spatial ref) (common target ref) e3 ->
  extremes lo2 hi2 e2 -> extremes lo3 hi3 e3 -> check target ref lim2 lim3 <> 0%nat ->
  let n := Nat.max (length target / 500) 100 in
  below (lim2 - width lo2 hi2 n) e2 < 9544 / 10000 * INR (length e2) \/ below (lim3 - width lo3 hi3 n) e3 < 9544 / 10000 * INR (length e3).
Proof. exact check_fail. Qed.
Print Assumptions C143_fails.
(** with more than 68.26 % of the errors in the first bin the check succeeds whatever the errors and the limits *)
Theorem C143_blind_refuted : forall ref target lim2 lim3 e2 e3 lo2 hi2 lo3 hi3, ascending ref -> 0 <= lim2 -> 0 <= lim3 -> common target ref <> [] ->
  Forall2 (horizontal ref) (common target ref) e2 -> Forall2 (spatial ref) (common target ref) e3 ->
  extremes lo2 hi2 e2 -> extremes lo3 hi3 e3 ->
  let n := Nat.max (length target / 500) 100 in crowded lo2 hi2 n e2 -> crowded lo3 hi3 n e3 -> check target ref lim2 lim3 = 0%nat.
Proof. exact check_blind. Qed.
Print Assumptions C143_blind_refuted.
(** errors of 10, 10, 10 and 1000 m pass the limit of 8 cm *)
Theorem C143_refuted : ascending (ref_case 0) /\ common off_case (ref_case 0) = off_case /\
  Forall2 (spatial (ref_case 0)) off_case [10; 10; 10; 1000] /\ check off_case (ref_case 0) (8 / 100) (8 / 100) = 0%nat.
Proof. exact (conj (ref_case_ascending 0) (conj off_common (conj off_spatial off_passes))). Qed.
Print Assumptions C143_refuted.
Example C143_case : extremes 10 1000 [10; 10; 10; 1000] /\ crowded 10 1000 100 [10; 10; 10; 1000].
Proof. exact (conj off_extremes off_crowded). Qed.

(** ** C144: a solution that is the reference passes, with limits of at least a centimetre *)
Theorem C144_perfect_partial : forall ref target lim2 lim3, ascending ref -> common target ref <> [] -> 1 / 100 <= lim2 -> 1 / 100 <= lim3 ->
  (forall r, In r (common target ref) -> forall a b, around ref a b (r_t r) ->
     r_lat r = at_time r_lat a b (r_t r) /\ r_lon r = at_time r_lon a b (r_t r) /\ r_h r = at_time r_h a b (r_t r)) ->
  check target ref lim2 lim3 = 0%nat.
Proof. exact perfect_pass. Qed.
Print Assumptions C144_perfect_partial.
(** without a common time it fails *)
Theorem C144_nothing : forall ref target lim2 lim3, common target ref = [] -> check target ref lim2 lim3 = 1%nat.
Proof. intros ref target lim2 lim3 H. unfold check. rewrite H. reflexivity. Qed.
Print Assumptions C144_nothing.
(** with limits of 9 millimetres it fails: the second sigma of errors that are all zero is 9.544 millimetres *)
Theorem C144_refuted : ascending (ref_case 0) /\ common on_case (ref_case 0) = on_case /\ Forall2 (spatial (ref_case 0)) on_case (repeat 0 2) /\
  check on_case (ref_case 0) (9 / 1000) (9 / 1000) <> 0%nat /\ forall c n, snd (sigmas (repeat c (S n)) 100) = Val (c + 9544 / 1000000).
Proof.
  split; [apply ref_case_ascending|]. split; [exact on_common|]. split; [repeat constructor; apply off_row; lra|]. split; [exact on_fails|].
  intros c n. rewrite sigma_equal. f_equal. lra.
Qed.
Print Assumptions C144_refuted.
Example C144_case : forall r, In r (common on_case (ref_case 0)) -> forall a b, around (ref_case 0) a b (r_t r) ->
     r_lat r = at_time r_lat a b (r_t r) /\ r_lon r = at_time r_lon a b (r_t r) /\ r_h r = at_time r_h a b (r_t r).
Proof.
  rewrite on_common. intros r I a b [(pre & post & E) _].
  assert (F : forall x, In x (ref_case 0) -> r_lat x = 0 /\ r_lon x = 0 /\ r_h x = 0) by (intros x [<-|[<-|[]]]; repeat split; reflexivity).
  destruct (F a) as (A1 & A2 & A3); [rewrite E; apply in_or_app; right; left; reflexivity|].
  destruct (F b) as (B1 & B2 & B3); [rewrite E; apply in_or_app; right; right; left; reflexivity|].
  unfold at_time. rewrite A1, A2, A3, B1, B2, B3. destruct I as [<-|[<-|[]]]; cbn [r_lat r_lon r_h]; lra.
Qed.
