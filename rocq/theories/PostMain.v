From Coq Require Import QArith Reals List Bool Lia Lra.
From Verif Require Import RealMath MergeModel OutageModel OutageSpec OutageProofs SmoothModel FusionBase InsModel KalmanModel FusionModel AlignModel
  ApiModel ApiSpec ApiProofs ApiFresh PostModel PostSpec PostProofs PostTime.
Import ListNotations.
Local Open Scope R_scope.

Lemma main_run c n start m mem j p0 opt init t : post_main c n start m mem j p0 opt init = Some (Done (Some t)) ->
  exists ss d0, ran c n start m mem j p0 opt init ss d0 t.
Proof.
  intros E. assert (E0 := E). unfold post_main in E. destruct (move_to_time n start m) as [[m1|]|] eqn:M; try discriminate.
  destruct (take n m1) as [[[ss []] m2]|] eqn:T; try discriminate. destruct (api_init mem j (Some opt) (Some init)) as [[d e]|] eqn:I; [|discriminate].
  destruct (init_status _ _ _ _ _ _ I) as (_ & ->). exists ss, d. split; [eauto|]. split; [exact I|exact E0].
Qed.
Lemma ran_run c n start m mem j p0 opt init ss d0 t : ran c n start m mem j p0 opt init ss d0 t ->
  post_run c (Post d0 (Some p0) []) ss = Some t /\ d_status d0 = RGIOE_STATUS_INIT.
Proof.
  intros ((m1 & m2 & M & T) & I & E). unfold post_main in E. rewrite M, T, I in E. split; [congruence|].
  destruct (init_status _ _ _ _ _ _ I); auto.
Qed.
Lemma run_at c n start m mem j p0 opt init ss d0 t k : ran c n start m mem j p0 opt init ss d0 t -> (k < length ss)%nat ->
  exists d l r q, api_run d0 (calls_of c (firstn (S k) ss)) = Some (d, l) /\ nth_error (t_lines t) k = Some r /\
    r = read_result d q /\ (d_status d = RGIOE_STATUS_NAVIGATION -> forall b, api_do d (AResult b) = Some (d, RPva r)) /\
    (d_status d <> RGIOE_STATUS_NAVIGATION -> exists p, q = Some p /\ p_lat p = p_lat p0 /\ p_lon p = p_lon p0 /\ p_height p = p_height p0 /\ p_vn p = p_vn p0).
Proof.
  intros R0 K. destruct (ran_run _ _ _ _ _ _ _ _ _ _ _ _ R0) as (E & S0).
  destruct (post_line _ _ _ _ _ E eq_refl K) as (u & U & N & v & V & Q).
  destruct (post_dev _ _ _ _ U) as (l & A & _). cbn [t_dev] in A.
  exists (t_dev u), l, (t_result u), (t_result v). split; [exact A|]. split; [exact N|]. split; [exact Q|]. split.
  - intros St b. cbn [api_do]. rewrite Q. unfold read_result, api_result. rewrite St. destruct (t_result v); reflexivity.
  - intros St.
    assert (forall ss' w, post_run c (Post d0 (Some p0) []) ss' = Some w -> d_status (t_dev w) <> RGIOE_STATUS_NAVIGATION ->
      exists p, t_result w = Some p /\ p_lat p = p_lat p0 /\ p_lon p = p_lon p0 /\ p_height p = p_height p0 /\ p_vn p = p_vn p0) as G.
    { clear - S0. intros ss'. induction ss' as [|s ss' IH] using rev_ind; intros w W St.
      - injection W as <-. exists p0. auto.
      - rewrite post_run_app in W. destruct (post_run c _ ss') as [x|] eqn:X; [|discriminate]. simpl in W. unfold post_step in W.
        destruct (post_feed c (t_dev x) s) as [d|] eqn:F; [|discriminate]. injection W as <-. cbn [t_dev t_result] in *.
        assert (d_status (t_dev x) <> RGIOE_STATUS_NAVIGATION) as Sx.
        { intros H. apply St. unfold post_feed in F. destruct (s_type s).
          - destruct (api_time (t_dev x) _) as [[d' e]|] eqn:T; [|discriminate]. injection F as <-. unfold api_time in T. rewrite H in T.
            destruct (df_time _ _ _) as [[f sm]|]; [|discriminate]. injection T as <- _. exact H.
          - destruct (_ && _); injection F as <-; [exact H|]. exact (eq_trans (gnss_status (t_dev x) (Some (pc_fix_of c s))) H). }
        destruct (IH _ eq_refl Sx) as (p & -> & P). unfold read_result, api_result. destruct (d_status d); try (eexists; split; [reflexivity|exact P]). congruence. }
    apply (G (firstn k ss)); [exact V|]. intros H.
    assert (firstn (S k) ss = firstn k ss ++ skipn k (firstn (S k) ss)) as FS.
    { transitivity (firstn k (firstn (S k) ss) ++ skipn k (firstn (S k) ss)); [symmetry; apply firstn_skipn|]. f_equal. rewrite firstn_firstn. f_equal. lia. }
    rewrite FS, post_run_app, V in U. destruct (post_dev _ _ _ _ U) as (l2 & A2 & _).
    destruct (run_status _ _ _ _ (calls_quiet _ _) A2) as (X & Y). rewrite H in X, Y. simpl in X, Y.
    destruct (d_status (t_dev u)); simpl in X; try lia; try (apply St; reflexivity).
Qed.

(** one line per sample *)
Lemma lines_length c n start m mem j p0 opt init ss d0 t : ran c n start m mem j p0 opt init ss d0 t -> length (t_lines t) = length ss.
Proof.
  intros R0. destruct (ran_run _ _ _ _ _ _ _ _ _ _ _ _ R0) as (E & _). destruct (post_lines _ _ _ _ E) as (ls & A & B). now rewrite A.
Qed.
Lemma line_navigation c n start m mem j p0 opt init ss d0 t k : ran c n start m mem j p0 opt init ss d0 t -> (k < length ss)%nat ->
  exists d l r, api_run d0 (calls_of c (firstn (S k) ss)) = Some (d, l) /\ nth_error (t_lines t) k = Some r /\
    (d_status d = RGIOE_STATUS_NAVIGATION -> forall b, api_do d (AResult b) = Some (d, RPva r)).
Proof. intros R0 K. destruct (run_at _ _ _ _ _ _ _ _ _ _ _ _ _ R0 K) as (d & l & r & q & A & B & _ & C & _). eauto 6. Qed.

(** before NAVIGATION: what happened to be in memory *)
Lemma line_before c n start m mem j p0 opt init ss d0 t k d l : ran c n start m mem j p0 opt init ss d0 t -> (k < length ss)%nat ->
  api_run d0 (calls_of c (firstn (S k) ss)) = Some (d, l) -> d_status d <> RGIOE_STATUS_NAVIGATION ->
  exists q, nth_error (t_lines t) k = Some (Some q) /\ p_lat q = p_lat p0 /\ p_lon q = p_lon p0 /\ p_height q = p_height p0 /\ p_vn q = p_vn p0.
Proof.
  intros R0 K E St. destruct (run_at _ _ _ _ _ _ _ _ _ _ _ _ _ R0 K) as (d' & l' & r & q & A & B & C & _ & D).
  rewrite E in A. injection A as <- <-. destruct (D St) as (p & -> & P). rewrite B. subst r. unfold read_result, api_result.
  destruct (d_status d); try (eexists; split; [reflexivity|exact P]). congruence.
Qed.
Lemma first_line c n start m mem j p0 opt init ss d0 t : ran c n start m mem j p0 opt init ss d0 t -> ss <> [] ->
  o_align_mode (ao_rest opt) <> ALIGN_USE_GIVEN ->
  exists q, nth_error (t_lines t) 0 = Some (Some q) /\ p_lat q = p_lat p0 /\ p_lon q = p_lon p0 /\ p_height q = p_height p0 /\ p_vn q = p_vn p0.
Proof.
  intros R0 Ne Mo. destruct ss as [|s ss]; [congruence|]. assert (K : (0 < length (s :: ss))%nat) by (simpl; lia).
  destruct (run_at _ _ _ _ _ _ _ _ _ _ _ _ _ R0 K) as (d & l & r & q & A & _).
  eapply line_before; [exact R0|exact K|exact A|]. destruct R0 as (_ & I & _). destruct (init_ok _ _ _ _ _ I) as (S0 & O0 & _).
  cbn [firstn calls_of flat_map] in A. unfold call_of in A. destruct (s_type s).
  - cbn [app api_run api_do] in A. unfold api_time in A. rewrite S0, O0 in A. rewrite (proj2 (Z.eqb_neq _ _) Mo) in A.
    destruct (align_imu _ _) as [a|]; [|discriminate]. injection A as <- _. discriminate.
  - destruct (_ && _); cbn [app api_run api_do] in A.
    + injection A as <- _. rewrite S0. discriminate.
    + unfold api_gnss in A. rewrite S0 in A. injection A as <- _. rewrite S0. discriminate.
Qed.

(** with a given state nothing depends on memory from the first IMU sample on *)
Lemma given_navigation cs : forall d d' l, Forall quiet cs -> api_run d cs = Some (d', l) -> imus cs <> [] ->
  d_status d = RGIOE_STATUS_INIT \/ d_status d = RGIOE_STATUS_NAVIGATION -> o_align_mode (d_opt d) = ALIGN_USE_GIVEN ->
  d_status d' = RGIOE_STATUS_NAVIGATION.
Proof.
  induction cs as [|c cs IH]; intros d d' l Q E I S0 Mo; [contradiction|]. cbn [api_run] in E. inversion Q; subst.
  destruct (api_do d c) as [[d1 a]|] eqn:A; [|discriminate]. destruct (api_run d1 cs) as [[d2 l2]|] eqn:B; [|discriminate]. injection E as <- <-.
  assert ((exists x, c = ATime (Some x)) \/ imus (c :: cs) = imus cs) as [(x & ->)|Z].
  { destruct c as [j o n|[x|]|g| | | | |p|]; simpl; eauto. }
  - cbn [api_do] in A. destruct (api_time d (Some x)) as [[dd e]|] eqn:T; [|discriminate]. injection A as -> _.
    assert (d_status d1 = RGIOE_STATUS_NAVIGATION) as S1.
    { destruct S0 as [S0|S0]; [eapply given_first; eauto|]. unfold api_time in T. rewrite S0 in T. destruct (df_time _ _ _) as [[f sm]|]; [|discriminate].
      injection T as <- _. exact S0. }
    destruct (run_status _ _ _ _ H2 B) as (X & Y). rewrite S1 in X. simpl in X. destruct (d_status d2); simpl in X; try lia; reflexivity.
  - assert (I' : imus cs <> []) by congruence. clear Z.
    destruct c as [j o n|[x|]|[g|]| | | | |p|]; try contradiction; try (simpl in A; injection A as <- _; eapply IH; eassumption).
    + cbn [api_do] in A. destruct (api_time d (Some x)) as [[dd e]|] eqn:T; [|discriminate]. injection A as -> _.
      assert (d_status d1 = RGIOE_STATUS_NAVIGATION) as S1.
      { destruct S0 as [S0|S0]; [eapply given_first; eauto|]. unfold api_time in T. rewrite S0 in T. destruct (df_time _ _ _) as [[f sm]|]; [|discriminate].
        injection T as <- _. exact S0. }
      destruct (run_status _ _ _ _ H2 B) as (X & Y). rewrite S1 in X. simpl in X. destruct (d_status d2); simpl in X; try lia; reflexivity.
    + cbn [api_do] in A. unfold api_gnss in A. destruct S0 as [S0|S0]; rewrite S0 in A; injection A as <- _; (eapply IH; [eassumption|eassumption|eassumption| |]; cbn; auto).
Qed.
Lemma snoc_run d cs c : api_run d (cs ++ [c]) = match api_run d cs with Some (d1, l1) =>
   match api_do d1 c with Some (d2, a) => Some (d2, l1 ++ [a]) | None => None end | None => None end.
Proof. rewrite api_run_app. destruct (api_run d cs) as [[d1 l1]|]; [|reflexivity]. cbn [api_run]. destruct (api_do d1 c) as [[? ?]|]; reflexivity. Qed.
Lemma no_solution_read cs : forall d, (forall c, In c cs -> ~ solution_read c) -> reads_late d cs.
Proof.
  induction cs as [|c cs IH]; intros d H; [exact I|]. cbn [reads_late]. split; [intros X; exfalso; eapply H; [left; reflexivity|exact X]|].
  destruct (api_do d c) as [[d' a]|]; [|exact I]. apply IH. intros c' In'. apply H. now right.
Qed.
Lemma calls_no_read c ss x : In x (calls_of c ss) -> ~ solution_read x.
Proof.
  unfold calls_of. intros H. apply in_flat_map in H. destruct H as (s & _ & H). unfold call_of in H. destruct (s_type s).
  - destruct H as [<-|[]]. simpl; tauto.
  - destruct (_ && _); [destruct H|]. destruct H as [<-|[]]. simpl; tauto.
Qed.
Lemma given_lines c n start m opt init ss mem1 j1 p1 d1 t1 mem2 j2 p2 d2 t2 k :
  ran c n start m mem1 j1 p1 opt init ss d1 t1 -> ran c n start m mem2 j2 p2 opt init ss d2 t2 ->
  o_align_mode (ao_rest opt) = ALIGN_USE_GIVEN ->
  (exists i s, (i <= k)%nat /\ nth_error ss i = Some s /\ s_type s = DATA_TYPE_IMU) -> (k < length ss)%nat ->
  nth_error (t_lines t1) k = nth_error (t_lines t2) k.
Proof.
  intros R1 R2 Mo (i & s & Li & Ni & Ti) K.
  destruct (run_at _ _ _ _ _ _ _ _ _ _ _ _ _ R1 K) as (e1 & l1 & r1 & q1 & A1 & B1 & _ & C1 & _).
  destruct (run_at _ _ _ _ _ _ _ _ _ _ _ _ _ R2 K) as (e2 & l2 & r2 & q2 & A2 & B2 & _ & C2 & _).
  destruct R1 as (_ & I1 & _), R2 as (_ & I2 & _).
  assert (imus (calls_of c (firstn (S k) ss)) <> []) as Ne.
  { rewrite calls_imus. intros H. apply map_eq_nil in H.
    assert (In s (firstn (S k) ss)) as X.
    { assert (nth_error (firstn (S k) ss) i = Some s) as X; [|eapply nth_error_In; exact X].
      rewrite <- Ni. rewrite <- (firstn_skipn (S k) ss) at 2. rewrite nth_error_app1; [reflexivity|]. rewrite firstn_length_le; lia. }
    assert (In s (filter (fun s => match s_type s with DATA_TYPE_IMU => true | _ => false end) (firstn (S k) ss))) as Y by (apply filter_In; rewrite Ti; auto).
    rewrite H in Y. destruct Y. }
  assert (Q := calls_quiet c (firstn (S k) ss)).
  destruct (init_ok _ _ _ _ _ I1) as (S1 & O1 & _). destruct (init_ok _ _ _ _ _ I2) as (S2 & O2 & _).
  assert (N1 := given_navigation _ _ _ _ Q A1 Ne (or_introl S1) (eq_trans (f_equal o_align_mode O1) Mo)).
  assert (N2 := given_navigation _ _ _ _ Q A2 Ne (or_introl S2) (eq_trans (f_equal o_align_mode O2) Mo)).
  assert (F := fresh_start mem1 mem2 j1 j2 opt (Some init) d1 d2 (calls_of c (firstn (S k) ss) ++ [AResult p1]) I1 I2 (or_introl Mo)).
  rewrite !snoc_run, A1, A2, (C1 N1), (C2 N2) in F. rewrite B1, B2. f_equal.
  assert (Some (l1 ++ [RPva r1]) = Some (l2 ++ [RPva r2])) as G.
  { apply F.
    - apply Forall_app. split; [exact Q|repeat constructor].
    - apply no_solution_read. intros x X. apply in_app_or in X. destruct X as [X|[<-|[]]]; [eapply calls_no_read; eauto|simpl; tauto]. }
  injection G as G. apply app_inj_tail in G. destruct G as [_ G]. congruence.
Qed.

(** time stamps *)
Lemma line_time c n start m mem j p0 opt init ss d0 t k d l p : ran c n start m mem j p0 opt init ss d0 t ->
  (k < length ss)%nat -> api_run d0 (calls_of c (firstn (S k) ss)) = Some (d, l) -> d_status d = RGIOE_STATUS_NAVIGATION ->
  nth_error (t_lines t) k = Some (Some p) ->
  exists i s, (i <= k)%nat /\ nth_error ss i = Some s /\ s_type s = DATA_TYPE_IMU /\ p_gpst p = i_gpst (pc_imu_of c s) /\
    (forall i' s', (i < i' <= k)%nat -> nth_error ss i' = Some s' -> s_type s' <> DATA_TYPE_IMU).
Proof.
  intros R0 K A St N.
  destruct (run_at _ _ _ _ _ _ _ _ _ _ _ _ _ R0 K) as (d' & l' & r & q & A' & B & _ & C & _). rewrite A in A'. injection A' as <- <-.
  specialize (C St p0). cbn [api_do] in C. unfold api_result in C. rewrite St in C. rewrite N in B. injection B as <-. injection C as C.
  unfold df_output in C. apply InsProofs.bind_some in C. destruct C as (f & F & C). rewrite (output_time _ _ C).
  destruct (run_time _ _ _ _ (calls_quiet c (firstn (S k) ss)) A) as (T1 & T2).
  set (isimu := fun s => match s_type s with DATA_TYPE_IMU => true | _ => false end) in *.
  destruct R0 as (_ & I & _). destruct (init_ok _ _ _ _ _ I) as (S0 & _).
  assert (forall l0, (exists a s b, l0 = a ++ s :: b /\ isimu s = true /\ Forall (fun x => isimu x = false) b) \/ filter isimu l0 = []) as SP.
  { clear. intros l0. induction l0 as [|x l0 IH] using rev_ind; [now right|].
    destruct (isimu x) eqn:X; [left; exists l0, x, []; auto|].
    destruct IH as [(a & s & b & -> & Y & Z)|Y].
    - left. exists a, s, (b ++ [x]). rewrite <- app_assoc. split; [reflexivity|]. split; [exact Y|]. apply Forall_app; auto.
    - right. rewrite filter_app, Y. simpl. now rewrite X. }
  destruct (SP (firstn (S k) ss)) as [(a & s & b & Es & Is & Fb)|Z].
  - assert (length a < S k)%nat as La by (assert (X := firstn_length_le ss K); rewrite Es, app_length in X; simpl in X; lia).
    assert (nth_error ss (length a) = Some s) as Na.
    { rewrite <- (firstn_skipn (S k) ss), Es, <- app_assoc. rewrite nth_error_app2, Nat.sub_diag by lia. reflexivity. }
    exists (length a), s. split; [lia|]. split; [exact Na|]. split; [unfold isimu in Is; destruct (s_type s); congruence|]. split.
    + apply (T2 (map (pc_imu_of c) (filter isimu a))); [|exact St|exact F].
      rewrite calls_imus. fold isimu. rewrite Es, filter_app. simpl. rewrite Is.
      assert (filter isimu b = []) as -> by (clear - Fb; induction Fb as [|x b X _ IH]; simpl; [reflexivity|now rewrite X]).
      now rewrite map_app.
    + intros i' s' Li N' Ty. assert (nth_error b (i' - S (length a)) = Some s') as Nb.
      { rewrite <- (firstn_skipn (S k) ss), Es, nth_error_app1 in N'.
        - rewrite nth_error_app2 in N' by lia. replace (i' - length a)%nat with (S (i' - S (length a))) in N' by lia. exact N'.
        - rewrite <- Es, firstn_length_le; lia. }
      apply nth_error_In in Nb. rewrite Forall_forall in Fb. specialize (Fb _ Nb). unfold isimu in Fb. rewrite Ty in Fb. discriminate.
  - exfalso. assert (imus (calls_of c (firstn (S k) ss)) = []) as Z0 by (rewrite calls_imus; fold isimu; now rewrite Z).
    assert (X := T1 (tm f + 1) Z0). assert (nav_at d0 (tm f + 1)) as Y by (intros S1; rewrite S0 in S1; discriminate).
    specialize (X Y St f F). lra.
Qed.
Lemma times_ordered c n start m mem j p0 opt init ss d0 t k1 k2 e1 l1 e2 l2 a b : ran c n start m mem j p0 opt init ss d0 t ->
  imu_ordered c ss -> (k1 < k2 < length ss)%nat ->
  api_run d0 (calls_of c (firstn (S k1) ss)) = Some (e1, l1) -> d_status e1 = RGIOE_STATUS_NAVIGATION -> nth_error (t_lines t) k1 = Some (Some a) ->
  api_run d0 (calls_of c (firstn (S k2) ss)) = Some (e2, l2) -> d_status e2 = RGIOE_STATUS_NAVIGATION -> nth_error (t_lines t) k2 = Some (Some b) ->
  p_gpst a <= p_gpst b.
Proof.
  intros R0 Or K A1 S1 N1 A2 S2 N2.
  assert (K1 : (k1 < length ss)%nat) by lia. assert (K2 : (k2 < length ss)%nat) by lia.
  destruct (line_time _ _ _ _ _ _ _ _ _ _ _ _ _ _ _ _ R0 K1 A1 S1 N1) as (i1 & s1 & L1 & M1 & T1 & -> & U1).
  destruct (line_time _ _ _ _ _ _ _ _ _ _ _ _ _ _ _ _ R0 K2 A2 S2 N2) as (i2 & s2 & L2 & M2 & T2 & -> & U2).
  destruct (Nat.lt_trichotomy i1 i2) as [H|[H|H]].
  - exact (Or _ _ _ _ H M1 M2 T1 T2).
  - subst. rewrite M1 in M2. injection M2 as <-. lra.
  - exfalso. apply (U2 i1 s1); [lia|exact M1|exact T1].
Qed.

(** outages *)
Lemma outage_program c n start m mem j p0 opt init ss d0 t : ran c n start m mem j p0 opt init ss d0 t ->
  exists u, post_run (no_outage c) (Post d0 (Some p0) []) (filter (kept c) ss) = Some u /\ t_dev u = t_dev t /\
    t_lines u = kept_lines c ss (t_lines t).
Proof.
  intros R0. destruct (ran_run _ _ _ _ _ _ _ _ _ _ _ _ R0) as (E & S0).
  destruct (outage_runs c ss _ _ (Post d0 (Some p0) []) E eq_refl eq_refl) as (u & ls & A & B & _ & C & _ & D).
  { cbn. unfold api_result. now rewrite S0. }
  exists u. split; [exact A|]. split; [exact B|]. cbn [t_lines app] in C, D. now rewrite C.
Qed.
Lemma outage_repeats c n start m mem j p0 opt init ss d0 t k s : ran c n start m mem j p0 opt init ss d0 t ->
  nth_error ss (S k) = Some s -> kept c s = false -> nth_error (t_lines t) (S k) = nth_error (t_lines t) k.
Proof.
  intros R0 N Kp. destruct (ran_run _ _ _ _ _ _ _ _ _ _ _ _ R0) as (E & S0).
  assert (L : (S k < length ss)%nat) by (apply nth_error_Some; congruence).
  destruct (post_line _ _ _ _ (S k) E eq_refl L) as (u & U & N1 & v & V & Q).
  assert (L' : (k < length ss)%nat) by lia.
  destruct (post_line _ _ _ _ k E eq_refl L') as (v' & V' & N2 & w & W & Q2).
  rewrite V in V'. injection V' as <-. rewrite N1, N2. f_equal. rewrite Q.
  assert (firstn (S (S k)) ss = firstn (S k) ss ++ [s]) as FS.
  { clear -N. revert N. generalize (S k). clear k. intros k. revert ss; induction k as [|k IH]; intros [|x ss] N; simpl in *; try discriminate.
    - now injection N as ->.
    - now rewrite (IH _ N). }
  rewrite FS, post_run_app, V in U. simpl in U. unfold post_step in U. rewrite skipped_feed in U by exact Kp. injection U as <-. cbn [t_dev].
  rewrite Q2. apply result_twice.
Qed.
Lemma starts_unique f1 : forall f2 i stop step a b, gen_starts f1 i stop step = Some a -> gen_starts f2 i stop step = Some b -> a = b.
Proof.
  induction f1 as [|f1 IH]; intros [|f2] i stop step a b A B; try discriminate. simpl in A, B. destruct (Qltb i stop); [|congruence].
  destruct (gen_starts f1 _ _ _) as [a'|] eqn:A'; [|discriminate]. destruct (gen_starts f2 _ _ _) as [b'|] eqn:B'; [|discriminate].
  rewrite (IH _ _ _ _ _ _ A' B') in A. congruence.
Qed.
Lemma outage_unique f1 f2 start stop len step a b : new_outage f1 start stop len step = Some a -> new_outage f2 start stop len step = Some b -> a = b.
Proof.
  unfold new_outage. destruct (_ || _ || _); [congruence|]. destruct (gen_starts f1 _ _ _) as [a'|] eqn:A'; [|discriminate].
  destruct (gen_starts f2 _ _ _) as [b'|] eqn:B'; [|discriminate]. rewrite (starts_unique _ _ _ _ _ _ _ A' B'). congruence.
Qed.
Lemma kept_window c start stop len step fuel s : valid_plan start stop len step -> (0 < step)%Q -> new_outage fuel start stop len step = Some (pc_outage c) ->
  pc_outage_enable c = true -> (kept c s = false <-> s_type s = DATA_TYPE_GNSS /\ in_window start stop len step (s_time s)).
Proof.
  intros Vp St N En. destruct (outage_windows start stop len step Vp St) as (f2 & o & N2 & W).
  rewrite <- (outage_unique _ _ _ _ _ _ _ _ N N2) in W. unfold kept. rewrite En. rewrite <- W. destruct (s_type s); simpl.
  - split; [discriminate|intros [H _]; discriminate].
  - rewrite negb_false_iff. tauto.
Qed.
Lemma kept_disabled c s : pc_outage_enable c = false -> kept c s = true.
Proof. intros E. unfold kept. rewrite E. destruct (s_type s); reflexivity. Qed.
