(** Property C95: the recorded results. *)
From Coq Require Import Reals List Lra Psatz.
From Verif Require Import RealMath EarthModel EarthProofs ConvertProofs InsModel FusionBase FusionModel AlignModel ApiModel RecordedModel.
Import ListNotations.
Open Scope R_scope.

(** the displacement the library itself computes between two reported places (in degrees) *)
Definition displacement (p p0 : pva) : vec :=
  distance6 (p_lat p * deg) (p_lon p * deg) (p_lat p0 * deg) (p_lon p0 * deg) (p_height p) (p_height p0).

(** results of which the first is the origin *)
Definition navigating (l : list pva) : list (status * pva) := map (fun p => (RGIOE_STATUS_NAVIGATION, p)) l.

Lemma recorded_nav f l : recorded (Some f) (navigating l) =
  map (fun p => Msg (p_gpst p) RGIOE_STATUS_NAVIGATION
    (distance6 (p_lat p) (p_lon p) (vx f) (vy f) (p_height p) (vz f)) (p_vn p) (p_atti p)) l.
Proof. induction l as [|p l IH]; [reflexivity|]. simpl. f_equal. exact IH. Qed.

(** a record for each result, with time, velocity, attitude and the height above the first as reported *)
Theorem C95_rest_partial : forall p0 l,
  Forall2 (fun p m => g_time m = p_gpst p /\ g_vn m = p_vn p /\ g_atti m = p_atti p /\ vz (g_pos m) = p_height p - p_height p0)
    (p0 :: l) (recorded None (navigating (p0 :: l))).
Proof.
  intros p0 l. simpl. constructor; [simpl; repeat split|].
  fold (navigating l). rewrite recorded_nav. induction l as [|p l IH]; simpl; constructor; [simpl; repeat split|exact IH].
Qed.
Print Assumptions C95_rest_partial.

(** the north component is more than fifty-six times the displacement: degrees are taken for radians *)
Theorem C95_north_REFUTED : forall p0 p, 0 <= p_height p0 -> 0 <= p_height p ->
  exists k m0 m, recorded None (navigating [p0; p]) = [m0; m] /\ 56 <= k <= 61 /\
    vx (g_pos m) = k * vx (displacement p p0).
Proof.
  intros p0 p H0 H.
  set (h := p_height p / 2 + p_height p0 / 2). assert (Hh : 0 <= h) by (unfold h; lra).
  destruct (radii (p_lat p)) as [A1 A2]. destruct (radii (p_lat p * deg)) as [B1 B2].
  set (a := RM (p_lat p) + h). set (b := RM (p_lat p * deg) + h).
  assert (Ha : 0 < a) by (unfold a; lra). assert (Hb : 0 < b) by (unfold b; lra).
  exists (180 / PI * (a / b)). eexists. eexists. split; [reflexivity|].
  assert (P1 : 3 < PI) by (pose proof PI2_3_2; lra).
  assert (P2 : PI < 316 / 100) by exact ConvertProofs.PI_lt.
  assert (R1 : 989 / 1000 <= a / b).
  { apply (Rmult_le_reg_r b); [exact Hb|]. unfold Rdiv. rewrite (Rmult_assoc a), Rinv_l by lra. unfold a, b. lra. }
  assert (R2 : a / b <= 1011 / 1000).
  { apply (Rmult_le_reg_r b); [exact Hb|]. unfold Rdiv. rewrite (Rmult_assoc a), Rinv_l by lra. unfold a, b. lra. }
  assert (Q1 : 5696 / 100 <= 180 / PI).
  { apply (Rmult_le_reg_r PI); [lra|]. unfold Rdiv. rewrite (Rmult_assoc 180), Rinv_l by lra. lra. }
  assert (Q2 : 180 / PI <= 60).
  { apply (Rmult_le_reg_r PI); [lra|]. unfold Rdiv. rewrite (Rmult_assoc 180), Rinv_l by lra. lra. }
  split; [set (q := 180 / PI) in *; set (r := a / b) in *; clearbody q r; split; nra|].
  unfold displacement. simpl. unfold dN_h. fold h. fold a. fold b.
  unfold deg. field. split; [lra|apply PI_neq0].
Qed.
Print Assumptions C95_north_REFUTED.

(** the origin belongs to the process: a device started later elsewhere is recorded relative to the first result of the first *)
Theorem C95_origin_REFUTED : forall p0 l p1, exists ms m, recorded None (navigating (p0 :: l ++ [p1])) = ms ++ [m] /\
  vz (g_pos m) = p_height p1 - p_height p0.
Proof.
  intros p0 l p1. simpl. fold (navigating (l ++ [p1])). rewrite recorded_nav, map_app. simpl.
  eexists (_ :: _), _. split; [reflexivity|]. reflexivity.
Qed.
Print Assumptions C95_origin_REFUTED.

(** one thousandth of a degree to the north *)
Example C95_case : let p lat := Pva 0 0 lat 114 20 None vzero None None None 0 0 vzero vzero vzero vzero 1 in
  0 <= p_height (p 30) /\ vx (displacement (p (30 + / 1000)) (p 30)) <> 0.
Proof.
  intros p. split; [simpl; lra|]. unfold displacement. simpl. unfold dN_h.
  destruct (radii ((30 + / 1000) * deg)) as [A _]. unfold deg in *.
  replace ((30 + / 1000) * (PI / 180) - 30 * (PI / 180)) with (PI / 180000) by (field).
  pose proof PI_RGT_0. apply Rgt_not_eq. apply Rmult_gt_0_compat; lra.
Qed.
