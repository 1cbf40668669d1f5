(** Proofs about the sensor file readers. *)
From Coq Require Import QArith Qround List Arith Bool ZArith Lia.
From Verif Require Import MergeModel MergeProofs ReaderModel ReaderSpec.
Import ListNotations.

Section Whu.
Context {B V : Type} (decode : list B -> V) (neg : V -> V).

Definition all_indet : @imu_data V :=
  {| i_time := Indet; gyro := (Indet, Indet, Indet); acce := (Indet, Indet, Indet) |}.

Lemma from_array_record r : whu_record r -> from_array decode r = meaning decode r.
Proof.
  intro H. red in H. unfold from_array, meaning, element, double_of. rewrite H. reflexivity.
Qed.

Lemma whu_read_all f : forall recs fuel tail, Forall (whu_record (B:=B)) recs -> (length tail < 56)%nat ->
  (length recs < fuel)%nat ->
  read_whu decode neg fuel f (concat recs ++ tail) =
    Ok (map (fun r => to_frd neg f (meaning decode r)) recs ++ [to_frd neg f (from_array decode tail)]).
Proof.
  induction recs as [|r recs IH]; intros fuel tail HF Ht Hl; (destruct fuel as [|fuel]; [cbn in Hl; lia|]).
  - cbn [concat app map read_whu]. rewrite firstn_all2 by lia.
    replace (Nat.ltb (length tail) 56) with true by (symmetry; apply Nat.ltb_lt; lia). reflexivity.
  - inversion HF as [|? ? Hr HF']; subst. cbn [concat]. rewrite <- app_assoc. cbn [read_whu].
    red in Hr.
    replace (Nat.ltb (length (r ++ concat recs ++ tail)) 56) with false
      by (symmetry; apply Nat.ltb_ge; rewrite app_length; lia).
    rewrite firstn_app, skipn_app, <- Hr, Nat.sub_diag, firstn_all, skipn_all. cbn [firstn skipn].
    rewrite app_nil_r, app_nil_l. rewrite IH; [|exact HF'|exact Ht|cbn in Hl; lia].
    cbn [map app]. rewrite (from_array_record r Hr). reflexivity.
Qed.

Lemma cut_records : forall n (file : list B), (n = length file / 56)%nat ->
  exists recs tail, file = concat recs ++ tail /\ Forall whu_record recs /\ (length tail < 56)%nat /\ length recs = n.
Proof.
  induction n as [|n IH]; intros file Hn.
  - exists [], file. repeat split; auto. pose proof (Nat.div_mod (length file) 56 ltac:(lia)).
    pose proof (Nat.mod_upper_bound (length file) 56 ltac:(lia)). lia.
  - assert (H56 : (56 <= length file)%nat).
    { destruct (Nat.le_gt_cases 56 (length file)); [assumption|]. rewrite Nat.div_small in Hn by lia. lia. }
    destruct (IH (skipn 56 file)) as (recs & tail & E & F & T & L).
    { rewrite skipn_length. replace (length file) with ((length file - 56) + 1 * 56)%nat in Hn by lia.
      rewrite Nat.div_add in Hn by lia. lia. }
    exists (firstn 56 file :: recs), tail. cbn [concat length]. rewrite <- app_assoc, <- E, firstn_skipn.
    repeat split; auto. constructor; [|exact F]. red. rewrite firstn_length. lia.
Qed.

Lemma whu_always f file : exists recs tail l, file = concat recs ++ tail /\ Forall whu_record recs /\
  (length tail < 56)%nat /\
  read_whu decode neg (S (S (length file))) f file = Ok l /\ length l = S (length recs) /\
  firstn (length recs) l = map (fun r => to_frd neg f (meaning decode r)) recs.
Proof.
  destruct (cut_records _ file eq_refl) as (recs & tail & E & F & T & L).
  exists recs, tail. eexists. split; [exact E|]. split; [exact F|]. split; [exact T|]. split.
  - rewrite E at 2. apply whu_read_all; auto. rewrite L. pose proof (Nat.div_le_upper_bound (length file) 56 (length file)). lia.
  - rewrite app_length, map_length. cbn [length]. split; [lia|].
    rewrite firstn_app, map_length, Nat.sub_diag. cbn [firstn]. rewrite app_nil_r.
    rewrite <- (map_length (fun r => to_frd neg f (meaning decode r)) recs). apply firstn_all.
Qed.

Lemma whu_phantom f recs fuel : Forall (whu_record (B:=B)) recs -> (length recs < fuel)%nat ->
  read_whu decode neg fuel f (concat recs) =
    Ok (map (fun r => to_frd neg f (meaning decode r)) recs ++ [all_indet]).
Proof.
  intros F L. rewrite <- (app_nil_r (concat recs)). rewrite whu_read_all; [|auto|cbn; lia|auto].
  destruct f; reflexivity.
Qed.

Lemma concat_long : forall recs : list (list B), Forall whu_record recs -> length (concat recs) = (56 * length recs)%nat.
Proof.
  induction recs as [|r recs IH]; intro F; [reflexivity|]. inversion F as [|? ? Hr F']; subst. red in Hr.
  cbn [concat length]. rewrite app_length, (IH F'). lia.
Qed.
Lemma whu_broken recs tail : Forall (whu_record (B:=B)) recs -> (length tail < 56)%nat ->
  exists l x, read_whu decode neg (S (S (length (concat recs ++ tail)))) IMU_FRAME_FRD (concat recs ++ tail) = Ok l /\
    nth_error l (length recs) = Some x /\
    forall k v, nth_error (numbers x) k = Some v ->
      (v = Indet <-> (length tail < 8 * k + 8)%nat) /\
      ((8 * k + 8 <= length tail)%nat -> v = Known (decode (firstn 8 (skipn (8 * k) tail)))).
Proof.
  intros F T. do 2 eexists. split.
  - apply whu_read_all; auto. rewrite app_length, concat_long by exact F. lia.
  - split.
    + rewrite nth_error_app2 by (rewrite map_length; lia). rewrite map_length, Nat.sub_diag. reflexivity.
    + intros k v H. assert (E : v = element decode tail k).
      { cbn in H. do 7 (destruct k as [|k]; [injection H as <-; reflexivity|]). destruct k; discriminate. }
      rewrite E. unfold element. destruct (Nat.leb (8 * k + 8) (length tail)) eqn:L.
      * apply Nat.leb_le in L. split; [split; [discriminate|lia]|reflexivity].
      * apply Nat.leb_gt in L. split; [tauto|lia].
Qed.

(** axes: applying the conversion twice is the identity *)
Lemma swap_involutive v : (forall x, neg (neg x) = x) -> swap_axes neg (swap_axes neg v) = v.
Proof.
  intro N. destruct v as [[x y] z]. cbn. destruct z; cbn; rewrite ?N; reflexivity.
Qed.
End Whu.

(** ** text extraction *)
Lemma extract_nums : forall qs init rest, length init = length qs ->
  extract init true (nums qs ++ rest) = (map Known qs, true, rest).
Proof.
  induction qs as [|q qs IH]; intros [|v init] rest H; cbn in H; try lia; [reflexivity|].
  cbn [nums map app extract]. fold (nums qs). rewrite IH by lia. reflexivity.
Qed.
Lemma extract_bad : forall init ts, (exists q r, ts = q ++ T_bad :: r) -> forall good,
  let '(_, g, ts') := extract init good ts in
  (exists q r, ts' = q ++ T_bad :: r).
Proof.
  induction init as [|v init IH]; intros ts HT good; [exact HT|].
  cbn [extract]. destruct good.
  - destruct ts as [|[q|] ts].
    + destruct HT as ([|? ?] & ? & H); discriminate.
    + assert (HT' : exists q r, ts = q ++ T_bad :: r).
      { destruct HT as ([|? a] & b & H); [discriminate|]. injection H as _ H. now exists a, b. }
      specialize (IH ts HT' true). destruct (extract init true ts) as [[l g] r]. exact IH.
    + specialize (IH (T_bad :: ts) HT false). destruct (extract init false (T_bad :: ts)) as [[l g] r]. exact IH.
  - specialize (IH ts HT false). destruct (extract init false ts) as [[l g] r]. exact IH.
Qed.

Lemma imu_txt_bad_hangs : forall fuel be good ts, In T_bad ts -> read_imu_txt fuel be good ts = Hang.
Proof.
  induction fuel as [|k IH]; intros be good ts H; [reflexivity|]. cbn [read_imu_txt].
  apply in_split in H. pose proof (extract_bad imu_init ts H good) as E.
  destruct (extract imu_init good ts) as [[d g'] ts']. destruct E as (q & r & E).
  assert (HI : In T_bad ts') by (rewrite E; apply in_or_app; right; left; reflexivity).
  destruct ts' as [|t ts']; [destruct HI|]. rewrite IH by exact HI. reflexivity.
Qed.

Lemma imu_txt_ok : forall recs fuel (be : bool), Forall (fun r : list Q => length r = 7%nat) recs -> recs <> [] ->
  (S (length recs) < fuel)%nat ->
  read_imu_txt fuel be true (nums (concat recs)) =
    Ok (map (map Known) recs ++ if be then [imu_init] else []).
Proof.
  induction recs as [|r recs IH]; intros fuel be F Hne Hl; [congruence|].
  destruct fuel as [|fuel]; [lia|]. inversion F as [|? ? Hr F']; subst.
  cbn [concat]. unfold nums. rewrite map_app. fold (nums r). fold (nums (concat recs)).
  cbn [read_imu_txt]. rewrite extract_nums by (rewrite Hr; reflexivity).
  destruct recs as [|r' recs].
  - cbn [concat nums map]. destruct be; [|reflexivity]. cbn in Hl.
    destruct fuel as [|fuel]; [lia|]. reflexivity.
  - assert (NE : nums (concat (r' :: recs)) <> []).
    { intro C. apply (f_equal (@length _)) in C. unfold nums in C. rewrite map_length in C.
      cbn [concat] in C. inversion F' as [|? ? Hr' _]; subst. rewrite app_length in C. cbn in C. lia. }
    specialize (IH fuel be F' ltac:(discriminate) ltac:(cbn in Hl |- *; lia)).
    destruct (nums (concat (r' :: recs))) eqn:E; [congruence|]. rewrite IH. reflexivity.
Qed.

(** ** GNSS *)
Lemma qfloor_inj z : Qfloor (inject_Z z) = z.
Proof. apply Qfloor_Z. Qed.

Lemma accept_ok t llh st m : 0 < t -> (0 < m)%Z -> exists a b c,
  accept {| r_time := Known t; r_llh := llh; r_std := st; r_mode := Known m |} =
  Ok (Some {| g_time := t; g_lat := val (nth 0 llh Indet); g_lon := val (nth 1 llh Indet);
              g_height := val (nth 2 llh Indet); g_std := (a, b, c); g_mode := m |}) /\
  a = val (nth 0 st Indet) /\ b = val (nth 1 st Indet) /\ c = val (nth 2 st Indet).
Proof.
  intros Ht Hm. do 3 eexists. split; [|split; [reflexivity|split; reflexivity]].
  unfold accept. cbn [r_time r_mode]. rewrite (proj2 (Qltb_lt 0 t) Ht).
  rewrite (proj2 (Z.ltb_lt 0 m) Hm). reflexivity.
Qed.

Lemma line_pos7 g : usable_fix g -> g_mode g = SPP ->
  exists r, parse_line GNSS_TXT_POS_7 (pos7_line g) = Some r /\ accept r = Ok (Some g).
Proof.
  intros [Ht Hm] E. destruct g as [t la lo h [[a b] c] m]. cbn [g_time g_mode] in *. subst m.
  assert (Hx : Qltb 0 t = true) by (apply Qltb_lt; exact Ht).
  unfold parse_line, pos7_line. rewrite <- (app_nil_r (nums _)), extract_nums by reflexivity.
  eexists. split; [reflexivity|]. unfold accept. cbn [r_time r_mode nth map g_time g_lat g_lon g_height app].
  rewrite Hx. reflexivity.
Qed.
Lemma line_rtklib w ns g : usable_fix g ->
  exists r, parse_line RTKLIB_TXT_POS (rtklib_line w ns g) = Some r /\ accept r = Ok (Some g).
Proof.
  intros [Ht Hm]. destruct g as [t la lo h [[a b] c] m]. cbn [g_time g_mode] in Ht, Hm.
  assert (Hx : Qltb 0 t = true) by (apply Qltb_lt; exact Ht).
  assert (Hy : Z.ltb 0 m = true) by (apply Z.ltb_lt; exact Hm).
  unfold parse_line, rtklib_line. rewrite <- (app_nil_r (nums _)), extract_nums by reflexivity.
  eexists. split; [reflexivity|]. unfold accept.
  cbn [r_time r_mode nth map g_time g_lat g_lon g_height g_mode app std_list g_std].
  rewrite Hx. cbn [as_int]. rewrite qfloor_inj, Hy. reflexivity.
Qed.

(** what a GGA line becomes *)
Definition gga_result (s0 s1 : Q) (g : gnss_data) : gnss_data :=
  let m := g_mode g in
  {| g_time := g_time g; g_lat := g_lat g; g_lon := g_lon g; g_height := g_height g;
     g_std := if Z.eqb m RTK_FIX then (1 # 1000, 1 # 1000, 1 # 1000)
              else if Z.eqb m RTK_FLOAT then (5 # 1000, 5 # 1000, 5 # 1000)
              else if (Z.eqb m RTK_DGPS || Z.eqb m SPP)%bool then (1, 1, 1) else (s0, s1, 0);
     g_mode := if (Z.eqb m RTK_FIX || Z.eqb m RTK_FLOAT || Z.eqb m SPP)%bool then m else INVALID |}.
Lemma line_gga w ns s0 s1 g : 0 < g_time g ->
  exists r, parse_line GNSS_TXT_GGA (gga_line w ns s0 s1 g) = Some r /\ accept r = Ok (Some (gga_result s0 s1 g)).
Proof.
  intros Ht. destruct g as [t la lo h [[a b] c] m]. cbn [g_time] in Ht.
  assert (Hx : Qltb 0 t = true) by (apply Qltb_lt; exact Ht).
  unfold gga_line, gga_result. cbn [g_time g_lat g_lon g_height g_mode].
  unfold parse_line. rewrite <- (app_nil_r (nums _)), extract_nums by reflexivity.
  cbn [map nth as_int firstn skipn app]. rewrite qfloor_inj.
  destruct (Z.eqb m RTK_FIX) eqn:E4; [apply Z.eqb_eq in E4; subst; eexists; split; [reflexivity|]; unfold accept; cbn [r_time r_mode]; rewrite Hx; reflexivity|].
  destruct (Z.eqb m RTK_FLOAT) eqn:E5; [apply Z.eqb_eq in E5; subst; eexists; split; [reflexivity|]; unfold accept; cbn [r_time r_mode]; rewrite Hx; reflexivity|].
  destruct (Z.eqb m RTK_DGPS) eqn:E2; [apply Z.eqb_eq in E2; subst; eexists; split; [reflexivity|]; unfold accept; cbn [r_time r_mode]; rewrite Hx; reflexivity|].
  destruct (Z.eqb m SPP) eqn:E1; [apply Z.eqb_eq in E1; subst; eexists; split; [reflexivity|]; unfold accept; cbn [r_time r_mode]; rewrite Hx; reflexivity|].
  eexists; split; [reflexivity|]; unfold accept; cbn [r_time r_mode]; rewrite Hx; reflexivity.
Qed.

Lemma read_gnss_lines f (line : gnss_data -> list token) (out : gnss_data -> gnss_data) : forall gs rest,
  (forall g, In g gs -> exists r, parse_line f (line g) = Some r /\ accept r = Ok (Some (out g))) ->
  read_gnss f (map line gs ++ rest) =
    match read_gnss f rest with Ok l => Ok (map out gs ++ l) | e => e end.
Proof.
  induction gs as [|g gs IH]; intros rest H.
  - cbn. destruct (read_gnss f rest); reflexivity.
  - cbn [map app read_gnss]. destruct (H g (or_introl eq_refl)) as (r & Hp & Ha). rewrite Hp, Ha.
    rewrite IH by (intros; apply H; right; assumption). destruct (read_gnss f rest); reflexivity.
Qed.

Lemma empty_line_undef f : read_gnss f [[]] = Undef.
Proof. destruct f; reflexivity. Qed.

Lemma bad_line_drops gs w ns bad rest : (forall g, In g gs -> usable_fix g) ->
  0 < g_time bad -> g_mode bad = 0%Z ->
  read_gnss RTKLIB_TXT_POS (map (rtklib_line w ns) gs ++ rtklib_line w ns bad :: rest) = Ok gs.
Proof.
  intros H Ht Hm. rewrite (read_gnss_lines _ _ (fun g => g)).
  - assert (E : read_gnss RTKLIB_TXT_POS (rtklib_line w ns bad :: rest) = Ok []).
    { cbn [read_gnss]. destruct bad as [t la lo h [[a b] c] m]. cbn [g_time g_mode] in Ht, Hm. subst m.
      unfold parse_line, rtklib_line. rewrite <- (app_nil_r (nums _)), extract_nums by reflexivity.
      unfold accept. cbn [r_time r_mode nth map g_time g_lat g_lon g_height g_mode app std_list g_std].
      rewrite (proj2 (Qltb_lt 0 t) Ht). reflexivity. }
    rewrite E, map_id, app_nil_r. reflexivity.
  - intros g Hg. apply line_rtklib, H, Hg.
Qed.

Lemma all_fixes :
  (forall gs, (forall g, In g gs -> usable_fix g /\ g_mode g = SPP) ->
     read_gnss GNSS_TXT_POS_7 (map pos7_line gs) = Ok gs) /\
  (forall gs w ns, (forall g, In g gs -> usable_fix g) ->
     read_gnss RTKLIB_TXT_POS (map (rtklib_line w ns) gs) = Ok gs) /\
  (forall gs w ns s0 s1, (forall g, In g gs -> 0 < g_time g) ->
     exists out, read_gnss GNSS_TXT_GGA (map (gga_line w ns s0 s1) gs) = Ok out /\
       Forall2 (fun g o => g_time o = g_time g /\ g_lat o = g_lat g /\ g_lon o = g_lon g /\
                  g_height o = g_height g /\
                  g_mode o = (if (Z.eqb (g_mode g) 4 || Z.eqb (g_mode g) 5 || Z.eqb (g_mode g) 1)%bool
                              then g_mode g else INVALID)) gs out).
Proof.
  split; [|split].
  - intros gs H. rewrite <- (app_nil_r (map _ gs)), (read_gnss_lines _ _ (fun g => g)).
    + cbn [read_gnss]. rewrite map_id, app_nil_r. reflexivity.
    + intros g Hg. apply line_pos7; apply H; exact Hg.
  - intros gs w ns H. rewrite <- (app_nil_r (map _ gs)), (read_gnss_lines _ _ (fun g => g)).
    + cbn [read_gnss]. rewrite map_id, app_nil_r. reflexivity.
    + intros g Hg. apply line_rtklib, H, Hg.
  - intros gs w ns s0 s1 H. exists (map (gga_result s0 s1) gs). split.
    + rewrite <- (app_nil_r (map (gga_line _ _ _ _) gs)), (read_gnss_lines _ _ (gga_result s0 s1)).
      * cbn [read_gnss]. rewrite app_nil_r. reflexivity.
      * intros g Hg. apply line_gga, H, Hg.
    + clear H. induction gs as [|g gs IH]; [constructor|]. constructor; [|exact IH]. repeat split.
Qed.

Lemma axes_rotation a b a' b' c' : swap_axes Z.opp (ints a) = ints a' ->
  swap_axes Z.opp (ints b) = ints b' -> swap_axes Z.opp (ints (crossZ a b)) = ints c' ->
  dotZ a' b' = dotZ a b /\ crossZ a' b' = c'.
Proof.
  destruct a as [[x y] z], b as [[u v] w], a' as [[x' y'] z'], b' as [[u' v'] w'], c' as [[p q] r].
  cbn. intros E1 E2 E3. inversion E1; inversion E2; inversion E3; subst. split; [ring|f_equal; [f_equal|]; ring].
Qed.
