(** Properties C129 - C133: replay of recorded data and the real-time simulation.
    Models: ReplayModel, AdiModel.  The specification is in the definitions here. *)
From Coq Require Import QArith Qround List Bool ZArith NArith Arith Lia.
From Verif Require Import ReplayModel ReplayProofs.
Import ListNotations.
Open Scope nat_scope.

(** a recording: records of [size] bytes one after the other, the first ones without a time ([early]), and possibly an
    incomplete record at the end ([tail]) *)
Definition recording {B P} (size : nat) (decode : list B -> raw P) (file : list B) (early late : list (list B)) : Prop :=
  exists tail, file = concat (early ++ late) ++ tail /\ length tail < size /\
    Forall (fun f => length f = size /\ (rw_time (decode f) <= 0)%Q) early /\ Forall (fun f => length f = size) late /\
    match late with f :: _ => (0 < rw_time (decode f))%Q | [] => True end.
(** types of records that have a topic, and the message for such a record *)
Definition message_of {P} (r : raw P) : list (message P) :=
  if rw_type r =? 0 then [M_imu r] else if rw_type r =? 1 then [M_gnss r] else if rw_type r =? 2 then [M_vel r]
  else if rw_type r =? 4 then [M_path r] else [].
Lemma publish_is {P} (r : raw P) : publish r = message_of r.
Proof. unfold publish, message_of. destruct (rw_type r) as [|[|[|[|[|n]]]]]; reflexivity. Qed.

(** * C129 *)
(** with one timer event more than there are records all records from the first one with a time on have been
    published once, in order, and then the end mark; whatever comes later nothing more is published *)
Theorem C129_all_published : forall B P size (decode : list B -> raw P) rt sp file early late ts,
  recording size decode file early late -> length (early ++ late) < length ts ->
  pl_out (play size decode rt sp file ts) = concat (map message_of (map decode late)) ++ [M_end].
Proof.
  intros B P size decode rt sp file early late ts (tail & -> & T & E & F & H) N.
  rewrite play_out by assumption. rewrite app_length in N.
  rewrite firstn_all2 by (rewrite map_length; lia). rewrite (map_ext _ _ publish_is). f_equal.
  unfold ended. rewrite app_length. destruct (Nat.ltb_spec (length early + length late) (length ts)); [reflexivity|lia].
Qed.
Print Assumptions C129_all_published.
(** at every moment what has been published is a beginning of that: nothing is skipped, repeated or out of order *)
Theorem C129_always_prefix : forall B P size (decode : list B -> raw P) rt sp file early late ts,
  recording size decode file early late -> length ts <= length (early ++ late) ->
  exists rest, concat (map message_of (map decode late)) = pl_out (play size decode rt sp file ts) ++ rest.
Proof.
  intros B P size decode rt sp file early late ts (tail & -> & T & E & F & H) N.
  rewrite play_out by assumption. unfold ended. destruct (Nat.ltb_spec (length (early ++ late)) (length ts)); [lia|].
  rewrite app_nil_r, (map_ext _ _ publish_is).
  exists (concat (map message_of (skipn (length ts - 1 - length early) (map decode late)))).
  rewrite <- concat_app, <- map_app, firstn_skipn. reflexivity.
Qed.
Print Assumptions C129_always_prefix.

(** * C130 *)
(** the pace has nothing to do with the times of the records, the clock or the chosen speed: one record for each event of the
    timer, that is for each millisecond *)
Theorem C130_pace_refuted : forall B P size (decode : list B -> raw P) rt sp file late n ts,
  recording size decode file [] late -> Forall (fun f => In (rw_type (decode f)) [0; 1; 2; 4]) late ->
  n <= length late -> length ts = n -> length (pl_out (play size decode rt sp file ts)) = n - 1.
Proof.
  intros B P size decode rt sp file late n ts (tail & -> & T & E & F & H) K N L.
  rewrite play_out by assumption. unfold ended. cbn [app length]. destruct (Nat.ltb_spec (length late) (length ts)); [lia|].
  rewrite app_nil_r, L, Nat.sub_0_r. rewrite firstn_map, map_map.
  assert (G : forall l : list (list B), Forall (fun f => In (rw_type (decode f)) [0; 1; 2; 4]) l ->
    length (concat (map (fun f => publish (decode f)) l)) = length l).
  { induction 1 as [|f l Hf _ IH]; [reflexivity|]. cbn [map concat]. rewrite app_length, IH. unfold publish.
    destruct Hf as [<-|[<-|[<-|[<-|[]]]]]; reflexivity. }
  rewrite G; [rewrite firstn_length; lia|]. apply Forall_forall. intros f I. rewrite Forall_forall in K. apply K.
  rewrite <- (firstn_skipn (n - 1) late). apply in_or_app. left. exact I.
Qed.
Print Assumptions C130_pace_refuted.
(** in particular a second of recorded 125 Hz data is replayed in 125 ms, in real-time mode and at any speed *)
Theorem C130_speed_ignored_refuted : forall B P size (decode : list B -> raw P) rt rt' sp sp' file early late ts ts',
  recording size decode file early late -> length ts = length ts' ->
  pl_out (play size decode rt sp file ts) = pl_out (play size decode rt' sp' file ts').
Proof.
  intros B P size decode rt rt' sp sp' file early late ts ts' (tail & -> & T & E & F & H) L.
  rewrite !play_out by assumption. rewrite L. reflexivity.
Qed.
Print Assumptions C130_speed_ignored_refuted.

(** records of three bytes: time, type, data *)
Definition case_decode (b : list nat) : raw nat := Raw (inject_Z (Z.of_nat (nth 0 b 0))) (nth 1 b 0) (nth 2 b 0).
Definition case_file : list nat := [0; 0; 5; 100; 0; 6; 100; 1; 7; 101; 3; 8; 102; 2; 9; 103; 0].
Example C129_case : recording 3 case_decode case_file [[0; 0; 5]] [[100; 0; 6]; [100; 1; 7]; [101; 3; 8]; [102; 2; 9]] /\
  pl_out (play 3 case_decode true 1 case_file [0; 0; 0; 0; 0; 0; 0]%Q) =
    [M_imu (Raw 100 0 6); M_gnss (Raw 100 1 7); M_vel (Raw 102 2 9); M_end].
Proof.
  split; [|reflexivity]. exists [103; 0]. split; [reflexivity|]. split; [cbn; lia|].
  split; [repeat constructor; discriminate|]. split; [repeat constructor|]. reflexivity.
Qed.
Example C130_case : recording 3 case_decode [100; 0; 6; 200; 1; 7] [] [[100; 0; 6]; [200; 1; 7]] /\
  Forall (fun f => In (rw_type (case_decode f)) [0; 1; 2; 4]) [[100; 0; 6]; [200; 1; 7]].
Proof.
  split; [|repeat constructor; cbn; tauto]. exists []. split; [reflexivity|]. split; [cbn; lia|].
  split; [constructor|]. split; [repeat constructor|]. reflexivity.
Qed.

(** * C131  the displayed path *)
(** the poses at whole seconds so far *)
Definition poses {A} (results : list (Q * A)) : list A := map snd (filter (fun r => whole_second (fst r)) results).
(** all of them as long as there are not more than 10000 *)
Theorem C131_path_partial : forall A (results : list (Q * A)), (N.of_nat (length (poses results)) <= 10000)%N ->
  show_path results = poses results.
Proof.
  intros A l H. destruct (path_suffix l) as (k & (L & M) & E). fold (poses l) in *. unfold count in L.
  change (shown l) with (poses l) in *. change path_limit with 10000%N in *.
  assert (K : k = 0%N) by nia. subst k. rewrite E. reflexivity.
Qed.
Print Assumptions C131_path_partial.
(** beyond, the path starts anew: with the 10001st pose it is empty, and its length is the number of poses modulo 10001 *)
Theorem C131_cleared_refuted : forall A (results : list (Q * A)),
  N.of_nat (length (show_path results)) = (N.of_nat (length (poses results)) mod 10001)%N.
Proof.
  intros A l. destruct (path_suffix l) as (k & (L & M) & E). unfold count in *. change (shown l) with (poses l) in *.
  change path_limit with 10000%N in *. apply (N.mod_unique _ _ k); [lia|]. rewrite L. lia.
Qed.
Print Assumptions C131_cleared_refuted.
(** "at whole seconds" holds for rates below 100 Hz only: times of one second and less than 10 ms later all count *)
Theorem C131_whole_seconds : forall k d, (0 <= k)%Z -> (0 <= d < 1)%Q -> whole_second (inject_Z k + d) = true <-> (d < 1 # 100)%Q.
Proof.
  intros k d K [D1 D2].
  assert (F : Qfloor (inject_Z k + d) = k).
  { assert (Z0 : Qfloor (inject_Z k + d) = Qfloor (inject_Z k + d)) by reflexivity.
    assert (L : (inject_Z (Qfloor (inject_Z k + d)) <= inject_Z k + d)%Q) by apply Qfloor_le.
    assert (U : (inject_Z k + d < inject_Z (Qfloor (inject_Z k + d) + 1))%Q) by apply Qlt_floor.
    set (f := Qfloor (inject_Z k + d)) in *. clearbody f. clear Z0.
    assert (A : (inject_Z k < inject_Z (f + 1))%Q).
    { eapply Qle_lt_trans; [|exact U]. rewrite <- (Qplus_0_r (inject_Z k)) at 1. apply Qplus_le_r, D1. }
    assert (C : (inject_Z f < inject_Z (k + 1))%Q).
    { eapply Qle_lt_trans; [exact L|]. rewrite inject_Z_plus. apply Qplus_lt_r, D2. }
    rewrite <- Zlt_Qlt in A, C. lia. }
  assert (P : Qle_bool 0 (inject_Z k + d) = true).
  { apply Qle_bool_iff. apply Qle_trans with (inject_Z 0 + d)%Q.
    - change (inject_Z 0) with 0%Q. rewrite Qplus_0_l. exact D1.
    - apply Qplus_le_l. rewrite <- Zle_Qle. exact K. }
  unfold whole_second. rewrite P, F.
  assert (X : (inject_Z k + d - inject_Z k == d)%Q) by ring.
  assert (Y : Qle_bool 0 (inject_Z k + d - inject_Z k) = true) by (apply Qle_bool_iff; rewrite X; exact D1).
  rewrite Y. destruct (Qle_bool (1 # 100) (inject_Z k + d - inject_Z k)) eqn:E; cbn [negb].
  - apply Qle_bool_iff in E. rewrite X in E. split; [discriminate|]. intros G. exfalso. exact (Qlt_not_le _ _ G E).
  - split; [intros _|reflexivity]. apply Qnot_le_lt. intros G. rewrite <- X in G. apply Qle_bool_iff in G. congruence.
Qed.
Print Assumptions C131_whole_seconds.
Example C131_case : poses [(100, 1%nat); (1005 # 10, 2%nat); (101001 # 1000, 3%nat); (101005 # 1000, 4%nat)]%Q = [1; 3; 4] /\ (0 <= 1 # 200 < 1)%Q.
Proof. split; [reflexivity|]. split; [discriminate|reflexivity]. Qed.

(** * C133  the fusion node *)
(** no fix is ever handed to the filter after the alignment, whatever arrives and whenever *)
Theorem C133_fixes_refuted : forall P (es : list (event P)) s s', nd_calls s = [] -> node_run s es = Some s' ->
  forall t x, ~ In (C_pos t x) (nd_calls s').
Proof.
  intros P es s s' C H t x I. assert (F : Forall no_fix (nd_calls s')).
  { eapply node_fixes; [|exact H]. rewrite C. constructor. }
  rewrite Forall_forall in F. exact (F _ I).
Qed.
Print Assumptions C133_fixes_refuted.
(** and the program is undefined exactly if the loop is run before a fix has arrived *)
Theorem C133_undefined_refuted : forall P (es : list (event P)) s, nd_gnss s = [] ->
  node_run s es = None <-> exists before after, es = before ++ E_loop :: after /\ forall t x, ~ In (E_gnss t x) before.
Proof.
  intros P es s N. pose proof (node_defined es s N) as D. split.
  - intros H. assert (F : fix_first es = false).
    { destruct (fix_first es); [|reflexivity]. destruct (proj2 D eq_refl) as (s' & E). congruence. }
    clear - F. induction es as [|[t x|t x|t x|] es IH]; cbn [fix_first] in F; try discriminate.
    + destruct (IH F) as (b & a & -> & G). exists (E_imu t x :: b), a. split; [reflexivity|].
      intros u y [I|I]; [discriminate|]. exact (G u y I).
    + destruct (IH F) as (b & a & -> & G). exists (E_vel t x :: b), a. split; [reflexivity|].
      intros u y [I|I]; [discriminate|]. exact (G u y I).
    + exists [], es. split; [reflexivity|]. intros u y [].
  - intros (b & a & -> & G). destruct (node_run s (b ++ E_loop :: a)) as [s'|] eqn:E; [|reflexivity].
    assert (F : fix_first (b ++ E_loop :: a) = true) by (apply D; eauto). exfalso. clear - F G.
    induction b as [|[t x|t x|t x|] b IH]; cbn [app fix_first] in F; try discriminate.
    + apply IH; [intros u y I; apply (G u y); right; exact I|exact F].
    + apply (G t x). left. reflexivity.
    + apply IH; [intros u y I; apply (G u y); right; exact I|exact F].
Qed.
Print Assumptions C133_undefined_refuted.
(** IMU samples: those handed over and those waiting are some of those that arrived, in order, each with its time moved by one second *)
Theorem C133_samples_in_order_partial : forall P (es : list (event P)) s s', nd_calls s = [] -> nd_imu s = [] -> node_run s es = Some s' ->
  sub (handed (nd_calls s') ++ nd_imu s') (map (fun x => ((fst x - 1)%Q, snd x)) (arrived es)).
Proof.
  intros P es s s' C I H. apply node_order in H. rewrite C, I in H. exact H.
Qed.
Print Assumptions C133_samples_in_order_partial.
(** and all of them if never more than ten wait *)
Theorem C133_samples_complete_partial : forall P (es : list (event P)) s s', nd_calls s = [] -> nd_imu s = [] -> node_run s es = Some s' ->
  fits 0 es -> handed (nd_calls s') ++ nd_imu s' = map (fun x => ((fst x - 1)%Q, snd x)) (arrived es).
Proof.
  intros P es s s' C I H F. apply node_complete in H; [|rewrite I; exact F]. rewrite C, I in H. exact H.
Qed.
Print Assumptions C133_samples_complete_partial.
Definition idle : node nat := Node [] [] [] [].
Definition busy : list (event nat) := [E_imu 10 1; E_gnss 10 7; E_loop; E_vel 11 5; E_imu 11 2; E_gnss 11 8; E_loop; E_loop].
Example C133_case : fits 0 busy /\
  node_run idle busy = Some (Node [] [(11%Q, 8)] [] [C_imu (10 - 1) 1; C_vel 11 5; C_imu (11 - 1) 2]) /\
  node_run idle [E_imu 10 1; E_loop; E_gnss 10 7] = None.
Proof. split; [cbn; lia|]. split; reflexivity. Qed.
(** eleven samples before the next round: the first one is lost *)
Example C133_lost_case : exists s', node_run idle (E_gnss 0 0 :: map (fun k => E_imu (inject_Z (Z.of_nat k)) k) (seq 1 11) ++ [E_loop]) = Some s' /\
  handed (nd_calls s') = [((inject_Z 2 - 1)%Q, 2)].
Proof. eexists. split; [vm_compute; reflexivity|vm_compute; reflexivity]. Qed.

(** * C132  IMU messages *)
From Coq Require Import Reals Lra.
From Verif Require Import RealMath AdiModel.
Open Scope R_scope.

(** angular rate in rad/s and specific force in units of standard gravity along front, right, down of a unit whose own axes are
    right, front, up, for 1/160 degree per second and 0.25 mg for the last bit *)
Definition rate_frd (d : adi) : vec := let '(r, f, u) := ad_gyro d in
  V (IZR f / 160 * (PI / 180)) (IZR r / 160 * (PI / 180)) (- (IZR u / 160 * (PI / 180))).
Definition force_frd (d : adi) : vec := let '(r, f, u) := ad_acce d in
  V (IZR f * (25 / 100000)) (IZR r * (25 / 100000)) (- (IZR u * (25 / 100000))).
Theorem C132_units_partial : forall d, in_gyro (imu_message d) = rate_frd d /\ in_acce (imu_message d) = force_frd d.
Proof.
  intros [[[a b] c] [[e f] g]]. unfold imu_message, convert_raw, rate_frd, force_frd, scaled, frd, kg, ka. cbn. split; f_equal; lra.
Qed.
Print Assumptions C132_units_partial.
(** the conversion to increments is there, with the interval of 8 ms and gravity 9.8015 m/s^2 *)
Theorem C132_increments : forall d, let i := absolute_to_increment true (convert_raw d) in
  in_gyro i = vscale (8 / 1000) (rate_frd d) /\ in_acce i = vscale (8 / 1000 * (98015 / 10000)) (force_frd d).
Proof.
  intros [[[a b] c] [[e f] g]]. unfold convert_raw, rate_frd, force_frd, scaled, absolute_to_increment, frd, kg, ka, adi_rate, adi_g, vscale.
  cbn. split; f_equal; lra.
Qed.
Print Assumptions C132_increments.
(** but is not called: what the library gets as increments is the rates, 125 times too large, and accelerations in units of
    gravity, more than twelve times too large *)
Theorem C132_rates_for_increments_refuted : forall d, let i := absolute_to_increment true (convert_raw d) in
  in_gyro (imu_message d) = vscale 125 (in_gyro i) /\
  exists k, 12 < k /\ in_acce (imu_message d) = vscale k (in_acce i).
Proof.
  intros d i. destruct (C132_units_partial d) as [G A]. destruct (C132_increments d) as [G' A']. fold i in G', A'.
  rewrite G, A, G', A'. split.
  - destruct (rate_frd d). unfold vscale. cbn. f_equal; lra.
  - exists (1 / (8 / 1000 * (98015 / 10000))). split; [lra|]. destruct (force_frd d). unfold vscale. cbn. f_equal; field.
Qed.
Print Assumptions C132_rates_for_increments_refuted.
Example C132_case : in_acce (imu_message {| ad_gyro := (160, 0, 0)%Z; ad_acce := (0, 0, 4000)%Z |}) = V 0 0 (-1).
Proof. rewrite (proj2 (C132_units_partial _)). unfold force_frd. cbn. f_equal; lra. Qed.
