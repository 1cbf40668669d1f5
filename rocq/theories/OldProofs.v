From Coq Require Import QArith Qabs Reals ZArith List Bool Lia.
From Verif Require Import MergeModel MergeSpec MergeProofs MergeProofs2 OutageModel SmoothModel FusionBase InsModel KalmanModel FusionModel AlignModel
  ApiModel ApiSpec ApiProofs ApiCases PostModel PostSpec PostProofs PostTime PostEnd OldModel OldSpec.
Import ListNotations.

Lemma last_imu_snoc pre s : last_imu (pre ++ [s]) = if is_imu s then Some s else last_imu pre.
Proof. unfold last_imu. rewrite rev_app_distr. reflexivity. Qed.
Lemma last_fix_snoc pre s : last_fix (pre ++ [s]) = if is_imu s then last_fix pre else Some s.
Proof. unfold last_fix. rewrite rev_app_distr. simpl. destruct (is_imu s); reflexivity. Qed.
Lemma near_close rate g i : old_near rate g i = true <-> close rate g i.
Proof.
  unfold old_near, close. destruct (Z.eqb_spec rate 0) as [E|N]; [tauto|]. rewrite Qltb_lt. intuition.
Qed.

(** one turn *)
Lemma step_calls c rate pre t s : u_imu t = last_imu pre -> u_gnss t = last_fix pre ->
  (last_fix (pre ++ [s]) <> None -> last_imu (pre ++ [s]) <> None) ->
  match old_step c rate t s with
  | Some t1 => u_imu t1 = last_imu (pre ++ [s]) /\ u_gnss t1 = last_fix (pre ++ [s]) /\
      api_run (u_dev t) (turn_calls c rate pre s) = Some (u_dev t1, map (fun _ => RCode RGIOE_OK) (turn_calls c rate pre s)) /\
      u_lines t1 = u_lines t ++ (if navigates (u_dev t1) then [df_output (u_dev t1)] else [])
  | None => api_run (u_dev t) (turn_calls c rate pre s) = None
  end.
Proof.
  intros HI HG HN. rewrite last_imu_snoc, last_fix_snoc in *. unfold old_step, old_switch, turn_calls. rewrite last_imu_snoc, last_fix_snoc.
  unfold is_imu in *. destruct (s_type s).
  - destruct (api_time (u_dev t) (Some (pc_imu_of c s))) as [[d1 e]|] eqn:A.
    + assert (e = RGIOE_OK) by (eapply time_code; exact A). subst e. unfold old_fix. rewrite HG. destruct (last_fix pre) as [g|].
      * destruct (old_near rate g s) eqn:N.
        -- cbn [app map]. assert (X : api_run (u_dev t) [ATime (Some (pc_imu_of c s)); AGnss (Some (pc_fix_of c g))] =
             Some (fst (api_gnss d1 (Some (pc_fix_of c g))), [RCode RGIOE_OK; RCode RGIOE_OK])).
           { cbn [api_run api_do]. rewrite A. destruct (api_gnss d1 (Some (pc_fix_of c g))) as [d2 e] eqn:G.
             assert (e = RGIOE_OK) by (unfold api_gnss in G; destruct (d_status d1); now injection G). subst e. reflexivity. }
           rewrite X. set (d := fst (api_gnss d1 (Some (pc_fix_of c g)))). unfold navigates.
           destruct (d_status d) eqn:St; cbn [u_imu u_gnss u_dev u_lines]; rewrite ?St, ?app_nil_r; repeat split; auto.
           f_equal. f_equal. unfold read_result, api_result. rewrite St. destruct (u_result t); reflexivity.
        -- assert (X : api_run (u_dev t) [ATime (Some (pc_imu_of c s))] = Some (d1, [RCode RGIOE_OK])) by (cbn [api_run api_do]; rewrite A; reflexivity).
           cbn [app map]. rewrite X. unfold navigates.
           destruct (d_status d1) eqn:St; cbn [u_imu u_gnss u_dev u_lines]; rewrite ?St, ?app_nil_r; repeat split; auto.
           f_equal. f_equal. unfold read_result, api_result. rewrite St. destruct (u_result t); reflexivity.
      * assert (X : api_run (u_dev t) [ATime (Some (pc_imu_of c s))] = Some (d1, [RCode RGIOE_OK])) by (cbn [api_run api_do]; rewrite A; reflexivity).
        cbn [app map]. rewrite X. unfold navigates.
        destruct (d_status d1) eqn:St; cbn [u_imu u_gnss u_dev u_lines]; rewrite ?St, ?app_nil_r; repeat split; auto.
        f_equal. f_equal. unfold read_result, api_result. rewrite St. destruct (u_result t); reflexivity.
    + rewrite run_calls_app. cbn [api_run api_do]. rewrite A. reflexivity.
  - unfold old_fix. rewrite HI. cbn [app]. destruct (last_imu pre) as [i|]; [|exfalso; apply HN; [discriminate|reflexivity]].
    destruct (old_near rate s i) eqn:N.
    + assert (X : api_run (u_dev t) [AGnss (Some (pc_fix_of c s))] = Some (fst (api_gnss (u_dev t) (Some (pc_fix_of c s))), [RCode RGIOE_OK])).
      { cbn [api_run api_do]. destruct (api_gnss (u_dev t) (Some (pc_fix_of c s))) as [d2 e] eqn:G.
        assert (e = RGIOE_OK) by (unfold api_gnss in G; destruct (d_status (u_dev t)); now injection G). subst e. reflexivity. }
      cbn [map]. rewrite X. set (d := fst (api_gnss (u_dev t) (Some (pc_fix_of c s)))). unfold navigates.
      destruct (d_status d) eqn:St; cbn [u_imu u_gnss u_dev u_lines]; rewrite ?St, ?app_nil_r; repeat split; auto.
      f_equal. f_equal. unfold read_result, api_result. rewrite St. destruct (u_result t); reflexivity.
    + cbn [map api_run]. unfold navigates.
      destruct (d_status (u_dev t)) eqn:St; cbn [u_imu u_gnss u_dev u_lines]; rewrite ?St, ?app_nil_r; repeat split; auto.
      f_equal. f_equal. unfold read_result, api_result. rewrite St. destruct (u_result t); reflexivity.
Qed.

(** an IMU sample has been read before the first fix *)
Definition led (pre : list sample) : Prop := last_fix pre <> None -> last_imu pre <> None.
Lemma led_snoc pre s : led pre -> (last_imu pre <> None \/ is_imu s = true) -> led (pre ++ [s]).
Proof. unfold led. rewrite last_imu_snoc, last_fix_snoc. destruct (is_imu s); [discriminate|]. intros _ [H|H]; [auto|discriminate]. Qed.
Lemma imu_stays pre s : last_imu pre <> None -> last_imu (pre ++ [s]) <> None.
Proof. rewrite last_imu_snoc. destruct (is_imu s); [discriminate|auto]. Qed.
(** without an IMU sample in front of it a fix makes the program dereference the null pointer *)
Lemma step_bad c rate t s : u_imu t = None -> is_imu s = false -> old_step c rate t s = None.
Proof. unfold old_step, old_switch, is_imu. intros E. destruct (s_type s); [discriminate|]. now rewrite E. Qed.

Lemma run_track c rate ss : forall pre t, u_imu t = last_imu pre -> u_gnss t = last_fix pre -> last_imu pre <> None ->
  match old_run c rate t ss with
  | Some t' => exists devs, length devs = length ss /\
      (exists l, api_run (u_dev t) (calls_after c rate pre ss) = Some (u_dev t', l)) /\
      (forall k d, nth_error devs k = Some d -> exists l, api_run (u_dev t) (calls_after c rate pre (firstn (S k) ss)) = Some (d, l)) /\
      u_lines t' = u_lines t ++ map df_output (filter navigates devs)
  | None => api_run (u_dev t) (calls_after c rate pre ss) = None
  end.
Proof.
  induction ss as [|s ss IH]; intros pre t HI HG HN; cbn [old_run calls_after].
  - exists []. split; [reflexivity|]. split; [eexists; reflexivity|]. split; [intros [|k] d H; discriminate|]. now rewrite app_nil_r.
  - assert (S1 := step_calls c rate pre t s HI HG). 
    assert (L : last_fix (pre ++ [s]) <> None -> last_imu (pre ++ [s]) <> None) by (intros _; now apply imu_stays).
    specialize (S1 L). destruct (old_step c rate t s) as [t1|].
    + destruct S1 as (HI1 & HG1 & R1 & L1). specialize (IH _ _ HI1 HG1 (imu_stays _ s HN)).
      destruct (old_run c rate t1 ss) as [t'|].
      * destruct IH as (devs & Ld & (l & R) & P & E). exists (u_dev t1 :: devs). split; [simpl; lia|]. split; [|split].
        -- rewrite run_calls_app, R1, R. eauto.
        -- intros [|k] d H; cbn [nth_error] in H.
           ++ injection H as <-. cbn [firstn calls_after]. rewrite app_nil_r. eauto.
           ++ destruct (P k d H) as (l' & R'). change (firstn (S (S k)) (s :: ss)) with (s :: firstn (S k) ss). cbn [calls_after].
              rewrite run_calls_app, R1, R'. eauto.
        -- rewrite E, L1, <- app_assoc. f_equal. cbn [filter]. destruct (navigates (u_dev t1)); reflexivity.
      * rewrite run_calls_app, R1, IH. reflexivity.
    + rewrite run_calls_app, S1. reflexivity.
Qed.
(** from the start: the first sample must be an IMU sample *)
Lemma run_start c rate s ss d0 r : is_imu s = true ->
  match old_run c rate (Old d0 r None None []) (s :: ss) with
  | Some t' => exists devs, length devs = length (s :: ss) /\
      (exists l, api_run d0 (old_calls c rate (s :: ss)) = Some (u_dev t', l)) /\
      (forall k d, nth_error devs k = Some d -> exists l, api_run d0 (old_calls c rate (firstn (S k) (s :: ss))) = Some (d, l)) /\
      u_lines t' = map df_output (filter navigates devs)
  | None => api_run d0 (old_calls c rate (s :: ss)) = None
  end.
Proof.
  intros HS. assert (S1 := step_calls c rate [] (Old d0 r None None []) s eq_refl eq_refl).
  assert (L : last_fix ([] ++ [s]) <> None -> last_imu ([] ++ [s]) <> None) by (rewrite last_imu_snoc, HS; discriminate).
  specialize (S1 L). unfold old_calls. cbn [old_run calls_after]. destruct (old_step c rate (Old d0 r None None []) s) as [t1|].
  - destruct S1 as (HI1 & HG1 & R1 & L1). cbn [u_dev u_lines app] in *.
    assert (N1 : last_imu [s] <> None) by (unfold last_imu; simpl; rewrite HS; discriminate).
    assert (K := run_track c rate ss _ _ HI1 HG1 N1). destruct (old_run c rate t1 ss) as [t'|].
    + destruct K as (devs & Ld & (l & R) & P & E). exists (u_dev t1 :: devs). split; [simpl; lia|]. split; [|split].
      * rewrite run_calls_app, R1, R. eauto.
      * intros [|k] d H; cbn [nth_error] in H.
        -- injection H as <-. cbn [firstn calls_after]. rewrite app_nil_r. eauto.
        -- destruct (P k d H) as (l' & R'). change (firstn (S (S k)) (s :: ss)) with (s :: firstn (S k) ss). cbn [calls_after].
           rewrite run_calls_app, R1. cbn [app]. rewrite R'. eauto.
      * rewrite E, L1. cbn [filter]. destruct (navigates (u_dev t1)); reflexivity.
    + rewrite run_calls_app, R1, K. reflexivity.
  - cbn [u_dev] in S1. rewrite run_calls_app, S1. reflexivity.
Qed.

(** ** the whole program *)
Lemma old_main_run c rate n start m mem j p0 opt init t : old_main c rate n start m mem j p0 opt init = Some (Done (Some t)) ->
  exists ss d0, old_ran c rate n start m mem j p0 opt init ss d0 t.
Proof.
  intros E. assert (E0 := E). unfold old_main in E. destruct (move_to_time n start m) as [[m1|]|] eqn:M; try discriminate.
  destruct (take n m1) as [[[ss []] m2]|] eqn:T; try discriminate. destruct (api_init mem j (Some opt) (Some init)) as [[d e]|] eqn:I; [|discriminate].
  destruct (init_status _ _ _ _ _ _ I) as (_ & ->). exists ss, d. split; [eauto|]. split; [exact I|exact E0].
Qed.
Lemma old_ran_run c rate n start m mem j p0 opt init ss d0 t : old_ran c rate n start m mem j p0 opt init ss d0 t ->
  old_run c rate (Old d0 (Some p0) None None []) ss = Some t.
Proof. intros ((m1 & m2 & M & T) & I & E). unfold old_main in E. rewrite M, T, I in E. congruence. Qed.
Lemma ran_first c rate n start m mem j p0 opt init ss d0 t : old_ran c rate n start m mem j p0 opt init ss d0 t ->
  ss = [] \/ exists s r, ss = s :: r /\ is_imu s = true.
Proof.
  intros H. apply old_ran_run in H. destruct ss as [|s ss]; [auto|right]. exists s, ss. split; [reflexivity|].
  destruct (is_imu s) eqn:E; [reflexivity|]. cbn [old_run] in H. rewrite step_bad in H; auto; discriminate.
Qed.
Lemma old_lines c rate n start m mem j p0 opt init ss d0 t : old_ran c rate n start m mem j p0 opt init ss d0 t ->
  exists devs, length devs = length ss /\
    (exists l, api_run d0 (old_calls c rate ss) = Some (u_dev t, l)) /\
    (forall k d, nth_error devs k = Some d -> exists l, api_run d0 (old_calls c rate (firstn (S k) ss)) = Some (d, l)) /\
    u_lines t = map df_output (filter navigates devs).
Proof.
  intros H. destruct (ran_first _ _ _ _ _ _ _ _ _ _ _ _ _ H) as [-> | (s & r & -> & E)]; apply old_ran_run in H.
  - injection H as <-. exists []. repeat split; [eexists; reflexivity|]. intros [|k] d K; discriminate.
  - assert (K := run_start c rate s r d0 (Some p0) E). rewrite H in K. exact K.
Qed.

(** ** the fix in the middle *)
Lemma calls_after_app c rate a : forall pre b, calls_after c rate pre (a ++ b) = calls_after c rate pre a ++ calls_after c rate (pre ++ a) b.
Proof.
  induction a as [|s a IH]; intros pre b; cbn [calls_after app]; [now rewrite app_nil_r|].
  rewrite IH, <- !app_assoc. reflexivity.
Qed.
(** the calls between a fix and the next one *)
Lemma calls_imus_after c rate g b : forall pre, last_fix pre = Some g -> forallb is_imu b = true ->
  calls_after c rate pre b =
  flat_map (fun i => ATime (Some (pc_imu_of c i)) :: if old_near rate g i then [AGnss (Some (pc_fix_of c g))] else []) b.
Proof.
  induction b as [|s b IH]; intros pre HG HB; [reflexivity|]. cbn [forallb] in HB. apply andb_true_iff in HB. destruct HB as [HS HB].
  cbn [calls_after flat_map]. rewrite (IH (pre ++ [s])); auto.
  - f_equal. unfold turn_calls. rewrite last_imu_snoc, last_fix_snoc, HS, HG. reflexivity.
  - now rewrite last_fix_snoc, HS.
Qed.
Lemma calls_of_fix c rate a i g b : last_imu a = Some i -> is_imu g = false -> forallb is_imu b = true ->
  calls_after c rate a (g :: b) =
  (if old_near rate g i then [AGnss (Some (pc_fix_of c g))] else []) ++
  flat_map (fun k => ATime (Some (pc_imu_of c k)) :: if old_near rate g k then [AGnss (Some (pc_fix_of c g))] else []) b.
Proof.
  intros HI HS HB. cbn [calls_after]. rewrite (calls_imus_after c rate g); auto.
  - f_equal. unfold turn_calls. rewrite last_imu_snoc, last_fix_snoc, HS, HI. reflexivity.
  - now rewrite last_fix_snoc, HS.
Qed.
Lemma overs_app a b : hand_overs (a ++ b) = hand_overs a ++ hand_overs b.
Proof. apply flat_map_app. Qed.
Lemma overs_fix c rate a i g b : last_imu a = Some i -> is_imu g = false -> forallb is_imu b = true ->
  hand_overs (calls_after c rate a (g :: b)) = repeat (pc_fix_of c g) (length (filter (old_near rate g) (i :: b))).
Proof.
  intros HI HS HB. rewrite (calls_of_fix _ _ _ i); auto. rewrite overs_app. cbn [filter]. 
  assert (E : hand_overs (flat_map (fun k => ATime (Some (pc_imu_of c k)) :: if old_near rate g k then [AGnss (Some (pc_fix_of c g))] else []) b) =
    repeat (pc_fix_of c g) (length (filter (old_near rate g) b))).
  { clear. induction b as [|k b IH]; [reflexivity|]. cbn [flat_map filter]. rewrite overs_app, IH. destruct (old_near rate g k); reflexivity. }
  rewrite E. destruct (old_near rate g i); reflexivity.
Qed.

Lemma find_some_ex {A} (f : A -> bool) l : find f l <> None -> exists x, find f l = Some x.
Proof. destruct (find f l); [eauto|congruence]. Qed.
Lemma quiet_turn c rate pre s : Forall quiet (turn_calls c rate pre s).
Proof.
  unfold turn_calls. apply Forall_app. split; [destruct (is_imu s); repeat constructor|].
  destruct (last_fix (pre ++ [s])), (last_imu (pre ++ [s])); try constructor. destruct (old_near _ _ _); repeat constructor.
Qed.
Lemma quiet_old c rate ss : forall pre, Forall quiet (calls_after c rate pre ss).
Proof. induction ss as [|s ss IH]; intros pre; [constructor|]. cbn [calls_after]. apply Forall_app. split; [apply quiet_turn|apply IH]. Qed.
Lemma imus_old c rate ss : forall pre, imus (calls_after c rate pre ss) = map (pc_imu_of c) (filter is_imu ss).
Proof.
  induction ss as [|s ss IH]; intros pre; [reflexivity|]. cbn [calls_after filter]. rewrite imus_app, IH. unfold turn_calls. rewrite imus_app.
  assert (E : imus (match last_fix (pre ++ [s]), last_imu (pre ++ [s]) with
    | Some g, Some i => if old_near rate g i then [AGnss (Some (pc_fix_of c g))] else [] | _, _ => [] end) = []).
  { destruct (last_fix (pre ++ [s])), (last_imu (pre ++ [s])); try reflexivity. destruct (old_near _ _ _); reflexivity. }
  rewrite E, app_nil_r. destruct (is_imu s); reflexivity.
Qed.
Lemma filter_le {A} (f : A -> bool) l : (length (filter f l) <= length l)%nat.
Proof. induction l as [|x l IH]; simpl; [lia|]. destruct (f x); simpl; lia. Qed.

(** the program ends for all files, and it is undefined exactly if the first record is a fix *)
Lemma old_ends c rate (g : bool) imu gnss start mem j p0 opt init n :
  MergeSpec.usable (if g then 2 else 1)%nat (streams imu gnss) -> (length imu + length gnss < n)%nat ->
  (Z.of_nat (length imu + length gnss) <= int_max)%Z ->
  exists m1 ss m2 r, move_to_time n start (built g imu gnss) = Some (Done m1) /\ take n m1 = Done (ss, true, m2) /\
    old_main c rate n start (built g imu gnss) mem j p0 opt init = Some (Done r) /\
    (r = None <-> exists s rest, ss = s :: rest /\ s_type s = DATA_TYPE_GNSS).
Proof.
  intros U L B. assert (Rd := built_ready g imu gnss U). assert (RB := built_rest g imu gnss).
  destruct (move_all n start _ Rd) as (m1 & E1 & R1 & L1); [lia|].
  destruct (take_all n m1 R1) as (ss & m2 & E2 & L2); [lia|].
  exists m1, ss, m2. unfold old_main. rewrite E1, E2.
  destruct (api_init mem j (Some opt) (Some init)) as [[d e]|] eqn:I; [|discriminate].
  destruct (init_status _ _ _ _ _ _ I) as (_ & ->). eexists. split; [reflexivity|]. split; [reflexivity|]. split; [reflexivity|].
  destruct ss as [|s ss].
  - split; [discriminate|]. intros (s & r & H & _). discriminate.
  - destruct (is_imu s) eqn:T.
    + assert (K := run_start c rate s ss d (Some p0) T). destruct (old_run _ _ _ _) as [t|].
      * split; [discriminate|]. intros (s' & r & H & Y). injection H as <- <-. unfold is_imu in T. rewrite Y in T. discriminate.
      * exfalso. destruct (history_defined _ _ _ _ _ (old_calls c rate (s :: ss)) I (quiet_old c rate _ _)) as (d1 & l & E); [|congruence].
        unfold old_calls. rewrite imus_old, map_length. assert (F := filter_le is_imu (s :: ss)). lia.
    + cbn [old_run]. rewrite step_bad by auto. split; [|reflexivity]. intros _. exists s, ss. split; [reflexivity|].
      unfold is_imu in T. destruct (s_type s); [discriminate|reflexivity].
Qed.
