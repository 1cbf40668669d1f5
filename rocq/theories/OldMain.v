(** The second program as a whole: memory, agreement with the first program, regular sampling. *)
From Coq Require Import QArith Qabs Qfield Lqa Reals ZArith List Bool Lia.
From Verif Require Import MergeModel MergeSpec MergeProofs OutageModel SmoothModel FusionBase InsModel KalmanModel FusionModel AlignModel
  ApiModel ApiSpec ApiProofs ApiFresh ApiCases PostModel PostSpec PostProofs PostTime PostMain OldModel OldSpec OldProofs.
Import ListNotations.

Lemma list_ext {A} : forall a b : list A, length a = length b -> (forall k x y, nth_error a k = Some x -> nth_error b k = Some y -> x = y) -> a = b.
Proof.
  induction a as [|x a IH]; intros [|y b] L H; try discriminate; [reflexivity|]. f_equal.
  - exact (H 0%nat x y eq_refl eq_refl).
  - apply IH; [now injection L|]. intros k u v P Q. exact (H (S k) u v P Q).
Qed.
Lemma nth_lines {A B} (f : A -> B) (p : A -> bool) : forall a b : list A, length a = length b ->
  (forall k x y, nth_error a k = Some x -> nth_error b k = Some y -> p x = p y /\ (p x = true -> f x = f y)) ->
  map f (filter p a) = map f (filter p b).
Proof.
  induction a as [|x a IH]; intros [|y b] L H; try discriminate; [reflexivity|].
  destruct (H 0%nat x y eq_refl eq_refl) as [E F]. cbn [filter]. rewrite <- E.
  assert (T : map f (filter p a) = map f (filter p b)) by (apply IH; [now injection L|]; intros k u v P Q; exact (H (S k) u v P Q)).
  destruct (p x); [cbn [map]; rewrite T, F; reflexivity|exact T].
Qed.

(** what the variable [result] held before does not matter *)
Lemma result_unused c rate n start m mem j p1 p2 opt init ss d0 t1 t2 :
  old_ran c rate n start m mem j p1 opt init ss d0 t1 -> old_ran c rate n start m mem j p2 opt init ss d0 t2 -> u_lines t1 = u_lines t2.
Proof.
  intros R1 R2. destruct (old_lines _ _ _ _ _ _ _ _ _ _ _ _ _ R1) as (a & La & _ & Pa & ->).
  destruct (old_lines _ _ _ _ _ _ _ _ _ _ _ _ _ R2) as (b & Lb & _ & Pb & ->).
  f_equal. f_equal. apply list_ext; [congruence|]. intros k x y X Y.
  destruct (Pa _ _ X) as (l1 & E1), (Pb _ _ Y) as (l2 & E2). congruence.
Qed.
Lemma old_no_read c rate ss : forall pre x, In x (calls_after c rate pre ss) -> ~ solution_read x.
Proof.
  induction ss as [|s ss IH]; intros pre x H; [destruct H|]. cbn [calls_after] in H. apply in_app_or in H. destruct H as [H|H]; [|eapply IH; exact H].
  unfold turn_calls in H. apply in_app_or in H. destruct H as [H|H].
  - destruct (is_imu s); [|destruct H]. destruct H as [<-|[]]. simpl; tauto.
  - destruct (last_fix (pre ++ [s])), (last_imu (pre ++ [s])); try (destruct H). destruct (old_near _ _ _); [|destruct H]. destruct H as [<-|[]]. simpl; tauto.
Qed.
(** with a given state: one line for every sample, and they do not depend on what memory held *)
Lemma old_given c rate n start m opt init ss mem1 j1 p1 d1 t1 mem2 j2 p2 d2 t2 :
  old_ran c rate n start m mem1 j1 p1 opt init ss d1 t1 -> old_ran c rate n start m mem2 j2 p2 opt init ss d2 t2 ->
  o_align_mode (ao_rest opt) = ALIGN_USE_GIVEN -> u_lines t1 = u_lines t2 /\ length (u_lines t1) = length ss.
Proof.
  intros R1 R2 Mo. destruct (old_lines _ _ _ _ _ _ _ _ _ _ _ _ _ R1) as (a & La & _ & Pa & Ea).
  destruct (old_lines _ _ _ _ _ _ _ _ _ _ _ _ _ R2) as (b & Lb & _ & Pb & Eb).
  destruct (ran_first _ _ _ _ _ _ _ _ _ _ _ _ _ R1) as [-> | (s & r & -> & T)].
  { destruct a, b; try discriminate. rewrite Ea, Eb. auto. }
  destruct R1 as (_ & I1 & _), R2 as (_ & I2 & _).
  destruct (init_ok _ _ _ _ _ I1) as (S1 & O1 & _). destruct (init_ok _ _ _ _ _ I2) as (S2 & O2 & _).
  set (ss := s :: r) in *.
  assert (Ne : forall k, imus (old_calls c rate (firstn (S k) ss)) <> []).
  { intros k. unfold old_calls. rewrite imus_old. unfold ss. cbn [firstn filter]. rewrite T. discriminate. }
  assert (Na : forall k x, nth_error a k = Some x -> d_status x = RGIOE_STATUS_NAVIGATION).
  { intros k x X. destruct (Pa _ _ X) as (l & A).
    exact (given_navigation _ _ _ _ (quiet_old _ _ _ _) A (Ne k) (or_introl S1) (eq_trans (f_equal o_align_mode O1) Mo)). }
  assert (Nb : forall k x, nth_error b k = Some x -> d_status x = RGIOE_STATUS_NAVIGATION).
  { intros k x X. destruct (Pb _ _ X) as (l & A).
    exact (given_navigation _ _ _ _ (quiet_old _ _ _ _) A (Ne k) (or_introl S2) (eq_trans (f_equal o_align_mode O2) Mo)). }
  split.
  - rewrite Ea, Eb. apply nth_lines; [congruence|]. intros k x y X Y. assert (Nx := Na _ _ X). assert (Ny := Nb _ _ Y).
    unfold navigates. rewrite Nx, Ny. split; [reflexivity|]. intros _.
    destruct (Pa _ _ X) as (l1 & A1), (Pb _ _ Y) as (l2 & A2).
    assert (F := fresh_start mem1 mem2 j1 j2 opt (Some init) d1 d2 (old_calls c rate (firstn (S k) ss) ++ [AResult p1]) I1 I2 (or_introl Mo)).
    assert (D : forall d p, d_status d = RGIOE_STATUS_NAVIGATION -> api_do d (AResult p) = Some (d, RPva (df_output d))).
    { intros d p H. cbn [api_do]. unfold api_result. rewrite H. reflexivity. }
    rewrite !snoc_run, A1, A2, (D _ _ Nx), (D _ _ Ny) in F.
    assert (G : Some (l1 ++ [RPva (df_output x)]) = Some (l2 ++ [RPva (df_output y)])).
    { apply F.
      - apply Forall_app. split; [apply quiet_old|repeat constructor].
      - apply no_solution_read. intros z Z. apply in_app_or in Z. destruct Z as [Z|[<-|[]]]; [eapply old_no_read; exact Z|simpl; tauto]. }
    injection G as G. apply app_inj_tail in G. destruct G as [_ G]. congruence.
  - rewrite Ea, map_length, <- La. f_equal.
    assert (F : forall l, (forall k x, nth_error l k = Some x -> d_status x = RGIOE_STATUS_NAVIGATION) -> filter navigates l = l).
    { clear. induction l as [|x l IH]; intros H; [reflexivity|]. cbn [filter]. unfold navigates at 1. rewrite (H 0%nat x eq_refl). f_equal.
      apply IH. intros k y Y. exact (H (S k) y Y). }
    apply F. exact Na.
Qed.

(** ** agreement with the first program *)
(** every fix is close to the sample before it and to none of the samples between it and the next fix *)
Definition fits_before (rate : Z) (ss : list sample) : Prop :=
  forall a s b, ss = a ++ s :: b ->
    match s_type s with
    | DATA_TYPE_GNSS => exists i, last_imu a = Some i /\ close rate s i
    | DATA_TYPE_IMU => forall g, last_fix a = Some g -> ~ close rate g s
    end.
Lemma same_calls c rate ss : pc_outage_enable c = false -> fits_before rate ss -> forall a b, ss = a ++ b -> calls_after c rate a b = calls_of c b.
Proof.
  intros HO HF a b. revert a. induction b as [|s b IH]; intros a E; [reflexivity|]. cbn [calls_after]. unfold calls_of. cbn [flat_map].
  fold (calls_of c b). rewrite (IH (a ++ [s])) by (rewrite <- app_assoc; exact E). f_equal. assert (K := HF a s b E).
  unfold turn_calls, call_of. rewrite last_imu_snoc, last_fix_snoc. unfold is_imu. destruct (s_type s).
  - destruct (last_fix a) as [g|]; [|reflexivity]. destruct (old_near rate g s) eqn:N; [|reflexivity]. apply near_close in N. exfalso. exact (K g eq_refl N).
  - destruct K as (i & -> & K). apply near_close in K. rewrite K, HO. reflexivity.
Qed.
Lemma post_devs c ss : forall t t', post_run c t ss = Some t' -> exists devs, length devs = length ss /\
  (forall k d, nth_error devs k = Some d -> exists l, api_run (t_dev t) (calls_of c (firstn (S k) ss)) = Some (d, l)) /\
  exists ls, t_lines t' = t_lines t ++ ls /\ length ls = length ss /\
    forall k d, nth_error devs k = Some d -> navigates d = true -> nth_error ls k = Some (df_output d).
Proof.
  induction ss as [|s ss IH]; intros t t' E; cbn [post_run] in E.
  - injection E as <-. exists []. split; [reflexivity|]. split; [intros [|k] d H; discriminate|]. exists []. rewrite app_nil_r. repeat split. intros [|k] d H; discriminate.
  - destruct (post_step c t s) as [t1|] eqn:S1; [|discriminate]. unfold post_step in S1.
    assert (F := feed_call c (t_dev t) s). destruct (post_feed c (t_dev t) s) as [d1|]; [|discriminate]. injection S1 as <-.
    destruct (IH _ _ E) as (devs & L & P & ls & El & Ll & N). cbn [t_dev t_lines] in *. exists (d1 :: devs). split; [simpl; lia|]. split.
    + intros [|k] d H; cbn [nth_error] in H.
      * injection H as <-. unfold calls_of. cbn [firstn flat_map]. rewrite app_nil_r, F. eauto.
      * destruct (P k d H) as (l & R). change (firstn (S (S k)) (s :: ss)) with (s :: firstn (S k) ss). unfold calls_of. cbn [flat_map].
        fold (calls_of c (firstn (S k) ss)). rewrite run_calls_app, F, R. eauto.
    + eexists. rewrite El, <- app_assoc. split; [reflexivity|]. split; [simpl; lia|].
      intros [|k] d H V; cbn [nth_error app] in *.
      * injection H as <-. unfold navigates in V. unfold read_result, api_result. destruct (d_status d1); try discriminate. destruct (t_result t); reflexivity.
      * exact (N k d H V).
Qed.
Fixpoint pick {A} (keep : list bool) (l : list A) : list A :=
  match keep, l with b :: r, x :: l' => if b then x :: pick r l' else pick r l' | _, _ => [] end.
Lemma pick_lines : forall devs (ls : list (option pva)), length ls = length devs ->
  (forall k d, nth_error devs k = Some d -> navigates d = true -> nth_error ls k = Some (df_output d)) ->
  map df_output (filter navigates devs) = pick (map navigates devs) ls.
Proof.
  induction devs as [|d devs IH]; intros [|x ls] L H; try discriminate; [reflexivity|]. cbn [filter map pick].
  assert (T : map df_output (filter navigates devs) = pick (map navigates devs) ls) by (apply IH; [now injection L|]; intros k e P Q; exact (H (S k) e P Q)).
  destruct (navigates d) eqn:N; [|exact T]. cbn [map]. rewrite T. f_equal. assert (K := H 0%nat d eq_refl N). now injection K.
Qed.
(** the second program writes the lines of the first one that belong to samples after which the filter navigates *)
Lemma programs_agree c rate n start m mem j p0 p1 opt init ss d0 t u : pc_outage_enable c = false -> fits_before rate ss ->
  ran c n start m mem j p0 opt init ss d0 t -> old_ran c rate n start m mem j p1 opt init ss d0 u ->
  u_dev u = t_dev t /\ exists keep, length keep = length ss /\
    (forall k b, nth_error keep k = Some b -> exists d l, api_run d0 (calls_of c (firstn (S k) ss)) = Some (d, l) /\
       (b = true <-> d_status d = RGIOE_STATUS_NAVIGATION)) /\
    u_lines u = pick keep (t_lines t).
Proof.
  intros HO HF R1 R2. destruct (old_lines _ _ _ _ _ _ _ _ _ _ _ _ _ R2) as (a & La & (la & Ra) & Pa & Ea).
  destruct (ran_run _ _ _ _ _ _ _ _ _ _ _ _ R1) as (E & _). destruct (post_devs _ _ _ _ E) as (b & Lb & Pb & ls & El & Ll & Nb).
  destruct (post_dev _ _ _ _ E) as (lb & Rb & _). cbn [t_dev t_lines app] in *.
  assert (SC : forall b', (exists r, ss = b' ++ r) -> old_calls c rate b' = calls_of c b').
  { intros b' (r & Er). unfold old_calls. apply (same_calls c rate b'); [exact HO| |reflexivity].
    intros x s y Exy. apply (HF x s (y ++ r)). rewrite Er, Exy, <- app_assoc. reflexivity. }
  assert (SK : forall k, old_calls c rate (firstn (S k) ss) = calls_of c (firstn (S k) ss)).
  { intros k. apply SC. exists (skipn (S k) ss). symmetry. apply firstn_skipn. }
  assert (X : a = b).
  { apply list_ext; [congruence|]. intros k x y P Q. destruct (Pa _ _ P) as (l1 & A1), (Pb _ _ Q) as (l2 & A2). rewrite SK in A1. congruence. }
  split.
  - rewrite SC in Ra by (exists []; now rewrite app_nil_r). congruence.
  - exists (map navigates b). split; [rewrite map_length; exact Lb|]. split.
    + intros k v H. rewrite nth_error_map in H. destruct (nth_error b k) as [d|] eqn:P; [|discriminate]. injection H as <-.
      destruct (Pb _ _ P) as (l & A). exists d, l. split; [exact A|]. unfold navigates. destruct (d_status d); split; intros; congruence.
    + rewrite Ea, X, El. apply pick_lines; [congruence|exact Nb].
Qed.

(** ** regular sampling *)
Local Open Scope Q_scope.
Lemma Qabs_lt x y : Qabs x < y <-> - y < x /\ x < y.
Proof. apply Qabs_Qlt_condition. Qed.
Lemma rate_pos rate : (0 < rate)%Z -> 0 < inject_Z rate.
Proof. intros H. unfold Qlt. simpl. lia. Qed.
(** the middle fifth of an interval is close to both ends *)
Lemma both_close rate i g k : (0 < rate)%Z -> s_time k == s_time i + 1 / inject_Z rate ->
  s_time i + (2 # 5) / inject_Z rate < s_time g -> s_time g < s_time i + (3 # 5) / inject_Z rate -> close rate g i /\ close rate g k.
Proof.
  intros R K A B. assert (P := rate_pos rate R). assert (N : ~ inject_Z rate == 0) by (intros E; rewrite E in P; discriminate).
  assert (U : 0 < 1 / inject_Z rate) by (apply Qlt_shift_div_l; [exact P|lra]).
  assert (E2 : (2 # 5) / inject_Z rate == (2 # 5) * (1 / inject_Z rate)) by (field; exact N).
  assert (E3 : (3 # 5) / inject_Z rate == (3 # 5) * (1 / inject_Z rate)) by (field; exact N).
  rewrite E2 in A. rewrite E3 in B.
  split; right; rewrite E3; apply Qabs_lt; generalize dependent (1 / inject_Z rate); intros u; intros; split; lra.
Qed.
(** somewhere in an interval: close to one of the ends at least *)
Lemma one_close rate i g k : (0 < rate)%Z -> s_time k - s_time i < (6 # 5) / inject_Z rate -> s_time i <= s_time g -> s_time g <= s_time k ->
  close rate g i \/ close rate g k.
Proof.
  intros R K A B. assert (P := rate_pos rate R). assert (N : ~ inject_Z rate == 0) by (intros E; rewrite E in P; discriminate).
  assert (U : 0 < 1 / inject_Z rate) by (apply Qlt_shift_div_l; [exact P|lra]).
  assert (E6 : (6 # 5) / inject_Z rate == (6 # 5) * (1 / inject_Z rate)) by (field; exact N).
  assert (E3 : (3 # 5) / inject_Z rate == (3 # 5) * (1 / inject_Z rate)) by (field; exact N).
  rewrite E6 in K.
  destruct (Qlt_le_dec (s_time g - s_time i) ((3 # 5) * (1 / inject_Z rate))) as [L|L].
  - left. right. rewrite E3. apply Qabs_lt. split; lra.
  - right. right. rewrite E3. apply Qabs_lt. split; lra.
Qed.
