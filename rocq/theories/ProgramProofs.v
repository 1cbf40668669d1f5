From Coq Require Import QArith Qreals Reals ZArith List Bool Sorted Lia.
From Verif Require Import MergeModel MergeSpec OutageModel SmoothModel FusionBase ApiModel ApiSpec PostModel PostSpec ReaderModel ProgramModel ProgramSpec.
From Verif Require RealMath ConfigModel ReaderSpec ReaderProofs PostProofs PostMain PostEnd PostTime ApiProofs ApiCases.
Import ListNotations.
Local Open Scope nat_scope.

(** * the merge of two lists of samples *)
Fixpoint smerge (I : list sample) : list sample -> list sample :=
  fix inner G := match I, G with
  | a :: I', b :: G' => if Qle_bool (s_time a) (s_time b) then a :: smerge I' G else b :: inner G'
  | _, _ => []
  end.
Definition selected (g : bool) (I G : list sample) : list sample := if g then smerge I G else I.
Fixpoint sbehind (t : Q) (l : list sample) : list sample :=
  match l with [] => [] | e :: r => if Qle_bool t (s_time e) then r else sbehind t r end.

Definition stands (g : bool) (m : manager) (I G : list sample) (p q : nat) : Prop :=
  que m 0 = I /\ que m 1 = G /\ que_num m = (if g then 2 else 1) /\ position m 0 = p /\ position m 1 = q.
Definition small (l : list sample) : Prop := Forall (fun s => s_time s < INT_MAX)%Q l.

Lemma nth_skip {A} (l : list A) p : nth_error l p = hd_error (skipn p l).
Proof. revert p. induction l as [|x l IH]; intros [|p]; cbn; auto. Qed.
Lemma skip_S {A} (l : list A) p x r : skipn p l = x :: r -> skipn (S p) l = r.
Proof. revert p. induction l as [|y l IH]; intros [|p] E; cbn in *; try discriminate; [now injection E|]. now apply IH. Qed.
Lemma small_skip l p : small l -> small (skipn p l).
Proof. intros F. revert p. induction F as [|x l E F IH]; intros [|p]; cbn; [constructor|constructor|constructor; auto|apply IH]. Qed.
Lemma ltb_true a b : (a < b)%Q -> Qltb a b = true.
Proof. intros L. unfold Qltb. apply negb_true_iff. destruct (Qle_bool b a) eqn:E; [|reflexivity]. apply Qle_bool_iff in E. now apply Qle_not_lt in E. Qed.
Lemma ltb_le a b : Qltb b a = negb (Qle_bool a b). Proof. reflexivity. Qed.

Lemma next_end g m I G p q : stands g m I G p q -> selected g (skipn p I) (skipn q G) = [] -> get_next m = Done (None, m).
Proof.
  intros (A & B & C & D & E) S. unfold get_next. rewrite C. destruct g; cbn [Nat.ltb Nat.leb max_que_num heads selected] in *.
  - rewrite A, B, D, E, !nth_skip. destruct (skipn p I) as [|a I']; [reflexivity|]. destruct (skipn q G) as [|b G']; [reflexivity|].
    cbn in S. destruct (Qle_bool _ _); discriminate.
  - rewrite A, D, nth_skip, S. reflexivity.
Qed.
Lemma next_some g m I G p q x l : stands g m I G p q -> small G -> selected g (skipn p I) (skipn q G) = x :: l ->
  exists m' p' q', get_next m = Done (Some x, m') /\ stands g m' I G p' q' /\ selected g (skipn p' I) (skipn q' G) = l /\
    length (skipn p' I) + length (skipn q' G) < length (skipn p I) + length (skipn q G).
Proof.
  intros (A & B & C & D & E) SG HS. assert (S2 := small_skip G q SG).
  unfold get_next. rewrite C. destruct g; cbn [Nat.ltb Nat.leb max_que_num heads selected] in *.
  - rewrite A, B, D, E, !nth_skip. destruct (skipn p I) as [|a I'] eqn:EI; [destruct (skipn q G); discriminate|].
    destruct (skipn q G) as [|b G'] eqn:EG; [discriminate|]. cbn [hd_error].
    assert (Hb : (s_time b < INT_MAX)%Q) by now inversion S2. unfold argmin. cbn [argmin_loop]. cbn in HS.
    assert (AM : (if Qltb (s_time a) INT_MAX then if Qltb (s_time b) (s_time a) then 1 else 0 else if Qltb (s_time b) INT_MAX then 1 else 0)
                 = if Qle_bool (s_time a) (s_time b) then 0 else 1).
    { rewrite (ltb_true _ _ Hb). rewrite !ltb_le. destruct (Qle_bool (s_time a) (s_time b)) eqn:Q0; cbn [negb].
      - destruct (Qle_bool INT_MAX (s_time a)) eqn:Q1; [|reflexivity]. apply Qle_bool_iff in Q0, Q1. exfalso.
        apply (Qlt_irrefl INT_MAX). eapply Qle_lt_trans; [exact Q1|]. eapply Qle_lt_trans; [exact Q0|exact Hb].
      - destruct (Qle_bool INT_MAX (s_time a)); reflexivity. }
    rewrite AM. subst p q. rewrite <- A in EI. rewrite <- B in EG. rewrite A in EI. rewrite B in EG.
    destruct (Qle_bool (s_time a) (s_time b)) eqn:Q0; injection HS as <- <-.
    + rewrite A, nth_skip, EI. cbn [hd_error].
      eexists; exists (S (position m 0)), (position m 1). split; [reflexivity|]. split; [repeat split; cbn; auto|].
      rewrite (skip_S _ _ _ _ EI). rewrite EG. split; [reflexivity|simpl; lia].
    + rewrite B, nth_skip, EG. cbn [hd_error].
      eexists; exists (position m 0), (S (position m 1)). split; [reflexivity|]. split; [repeat split; cbn; auto|].
      rewrite (skip_S _ _ _ _ EG), EI. split; [reflexivity|simpl; lia].
  - rewrite A, D, nth_skip, HS. cbn [hd_error]. unfold argmin. cbn [argmin_loop].
    assert (AM : (if Qltb (s_time x) INT_MAX then 0 else 0) = 0) by (destruct (Qltb _ _); reflexivity).
    rewrite AM, A, D, nth_skip, HS. cbn [hd_error].
    eexists; exists (S p), q. split; [reflexivity|]. split; [repeat split; cbn; auto; now rewrite D|].
    rewrite (skip_S _ _ _ _ HS). split; [reflexivity|simpl; lia].
Qed.

Lemma take_merge g n : forall m I G p q, stands g m I G p q -> small G ->
  length (skipn p I) + length (skipn q G) < n -> exists m', take n m = Done (selected g (skipn p I) (skipn q G), true, m').
Proof.
  induction n as [|n IH]; intros m I G p q H SG L; [lia|]. cbn [take].
  destruct (selected g (skipn p I) (skipn q G)) as [|x l] eqn:S.
  - rewrite (next_end _ _ _ _ _ _ H S). eauto.
  - destruct (next_some _ _ _ _ _ _ _ _ H SG S) as (m1 & p1 & q1 & -> & H1 & S1 & L1).
    destruct (IH m1 I G p1 q1 H1 SG) as (m2 & ->); [lia|]. rewrite S1. eauto.
Qed.
Lemma move_merge g t n : forall m I G p q, stands g m I G p q -> small G ->
  length (skipn p I) + length (skipn q G) < n ->
  exists m' p' q', move_to_time n t m = Some (Done m') /\ stands g m' I G p' q' /\
    selected g (skipn p' I) (skipn q' G) = sbehind t (selected g (skipn p I) (skipn q G)) /\
    length (skipn p' I) + length (skipn q' G) <= length (skipn p I) + length (skipn q G).
Proof.
  induction n as [|n IH]; intros m I G p q H SG L; [lia|]. cbn [move_to_time].
  destruct (selected g (skipn p I) (skipn q G)) as [|x l] eqn:S.
  - rewrite (next_end _ _ _ _ _ _ H S). exists m, p, q. rewrite S. auto.
  - destruct (next_some _ _ _ _ _ _ _ _ H SG S) as (m1 & p1 & q1 & -> & H1 & S1 & L1).
    cbn [sbehind]. rewrite ltb_le. destruct (Qle_bool t (s_time x)); cbn [negb].
    + exists m1, p1, q1. split; [reflexivity|]. split; [exact H1|]. split; [exact S1|lia].
    + destruct (IH m1 I G p1 q1 H1 SG) as (m2 & p2 & q2 & E & H2 & S2 & L2); [lia|].
      exists m2, p2, q2. rewrite S1 in S2. split; [exact E|]. split; [exact H2|]. split; [exact S2|lia].
Qed.

Lemma built_stands g I G : stands g (built g I G) I (if g then G else []) 0 0.
Proof. destruct g; repeat split. Qed.
Lemma built_taken g I G t n : small G -> length I + length G < n ->
  exists m1 m2, move_to_time n t (built g I G) = Some (Done m1) /\ take n m1 = Done (sbehind t (selected g I G), true, m2).
Proof.
  intros SG L. assert (small (if g then G else [])) by (destruct g; [auto|constructor]).
  destruct (move_merge g t n _ _ _ _ _ (built_stands g I G) H) as (m1 & p & q & M & H1 & S & L1); [destruct g; cbn [skipn length]; lia|].
  destruct (take_merge g n m1 _ _ _ _ H1 H) as (m2 & T); [revert L1; destruct g; cbn [skipn length]; lia|].
  exists m1, m2. split; [exact M|]. rewrite T, S. destruct g; reflexivity.
Qed.
Lemma smerge_length : forall I G, length (smerge I G) <= length I + length G.
Proof.
  induction I as [|a I IH]; intros G; [destruct G; cbn; lia|]. induction G as [|b G IG]; [cbn; lia|].
  change (smerge (a :: I) (b :: G)) with (if Qle_bool (s_time a) (s_time b) then a :: smerge I (b :: G) else b :: smerge (a :: I) G).
  destruct (Qle_bool _ _); [specialize (IH (b :: G)); cbn [length] in *; lia|cbn [length] in *; lia].
Qed.
Lemma sbehind_length t l : length (sbehind t l) <= length l.
Proof. induction l; cbn [sbehind]; [lia|]. destruct (Qle_bool _ _); cbn; lia. Qed.

(** * from samples to the events of the files *)
Definition known (r : list Q) : imu7 := map Known r.
Section Link.
Variables (u : Q) (c : post_config) (imus : list imu7) (fixes : list gnss_data) (rfu : bool) (hid : Q -> bool).
Hypothesis Hi : pc_imu_of c = fun s => rgioe_imu u (nth (s_tag s) imus fresh_imu).
Hypothesis Hf : pc_fix_of c = fun s => rgioe_fix (nth (s_tag s) fixes no_fix).
Hypothesis Ho : forall t, (pc_outage_enable c && is_outage (pc_outage c) t)%bool = hid t.

(** what the reader delivered carries the numbers of the line *)
Definition delivers (d : imu7) (r : list Q) : Prop :=
  num u (at_ d 0) = nth 0 r 0%Q /\ [ATime (Some (rgioe_imu u d))] = call_for rfu hid (Sample r).
(** a sample of the manager stands for the event *)
Inductive means : sample -> event -> Prop :=
  | M_imu s r : s_type s = DATA_TYPE_IMU -> s_time s = nth 0 r 0%Q ->
      delivers (nth (s_tag s) imus fresh_imu) r -> means s (Sample r)
  | M_fix s g : s_type s = DATA_TYPE_GNSS -> s_time s = g_time g -> nth (s_tag s) fixes no_fix = g -> means s (Fix g).

Lemma means_time s e : means s e -> s_time s = event_time e. Proof. now intros []. Qed.
Lemma means_call s e : means s e -> call_of c s = call_for rfu hid e.
Proof.
  intros []; unfold call_of; rewrite H; [|unfold call_for].
  - rewrite Hi. exact (proj2 H1).
  - rewrite Hf, H1, Ho, <- H0. unfold rgioe_fix, to_rgioe. cbn [ReaderModel.g_std].
    destruct (ReaderModel.g_std g) as [[? ?] ?]. cbn. rewrite H0. destruct (hid _); reflexivity.
Qed.
Lemma means_calls l es : Forall2 means l es -> calls_of c l = calls_for rfu hid es.
Proof. unfold calls_of, calls_for. induction 1; cbn [flat_map]; [reflexivity|]. rewrite (means_call _ _ H), IHForall2. reflexivity. Qed.
Lemma means_behind t l es : Forall2 means l es -> Forall2 means (sbehind t l) (behind t es).
Proof. induction 1; cbn; [constructor|]. rewrite (means_time _ _ H). destruct (Qle_bool _ _); auto. Qed.
Lemma means_merge : forall I rs, Forall2 means I (map Sample rs) -> forall G gs, Forall2 means G (map Fix gs) ->
  Forall2 means (smerge I G) (merged rs gs).
Proof.
  induction I as [|a I IH]; intros rs HI.
  - destruct rs; [|inversion HI]. intros G gs _. destruct G, gs; constructor.
  - destruct rs as [|r rs]; [inversion HI|]. assert (HA : means a (Sample r) /\ Forall2 means I (map Sample rs)) by (inversion HI; auto).
    destruct HA as (HA & HI'). intros G. induction G as [|b G IG]; intros gs HG.
    + destruct gs; [|inversion HG]. constructor.
    + destruct gs as [|g gs]; [inversion HG|]. assert (HB : means b (Fix g) /\ Forall2 means G (map Fix gs)) by (inversion HG; auto).
      destruct HB as (HB & HG'). 
      change (smerge (a :: I) (b :: G)) with (if Qle_bool (s_time a) (s_time b) then a :: smerge I (b :: G) else b :: smerge (a :: I) G).
      change (merged (r :: rs) (g :: gs)) with (if Qle_bool (nth 0 r 0%Q) (g_time g) then Sample r :: merged rs (g :: gs) else Fix g :: merged (r :: rs) gs).
      generalize (IG gs HG'). rewrite (means_time _ _ HA), (means_time _ _ HB). intros IG'. cbn [event_time].
      destruct (Qle_bool _ _).
      * constructor; [exact HA|]. exact (IH rs HI' (b :: G) (g :: gs) HG).
      * constructor; [exact HB|]. exact IG'.
Qed.
Lemma samples_mean ds rs : Forall2 delivers ds rs -> forall k, (forall i d, nth_error ds i = Some d ->
    nth (k + i) imus fresh_imu = d) -> Forall2 means (imu_samples u k ds) (map Sample rs).
Proof.
  induction 1 as [|d r ds rs E F IH]; intros k N; cbn [map imu_samples]; [constructor|]. constructor.
  - apply M_imu; cbn [s_type s_time s_tag]; [reflexivity|exact (proj1 E)|].
    rewrite <- (Nat.add_0_r k), (N 0 d eq_refl). exact E.
  - apply IH. intros i x X. rewrite Nat.add_succ_comm. now apply N.
Qed.
Lemma fixes_mean gs : forall k, (forall i g, nth_error gs i = Some g -> nth (k + i) fixes no_fix = g) ->
  Forall2 means (fix_samples k gs) (map Fix gs).
Proof.
  induction gs as [|g gs IH]; intros k N; cbn [map fix_samples]; constructor.
  - apply M_fix; auto. cbn. rewrite <- (Nat.add_0_r k). now apply N.
  - apply IH. intros i x X. rewrite Nat.add_succ_comm. now apply N.
Qed.
End Link.

Lemma nth_of {A} (l : list A) i x d : nth_error l i = Some x -> nth i l d = x.
Proof. revert i. induction l; intros [|i]; cbn; intros; try discriminate; [congruence|auto]. Qed.
Lemma Forall2_firstn {A B} (P : A -> B -> Prop) l1 l2 : Forall2 P l1 l2 -> forall n, Forall2 P (firstn n l1) (firstn n l2).
Proof. induction 1; intros [|n]; cbn; constructor; auto. Qed.
Lemma Forall2_len {A B} (P : A -> B -> Prop) l1 l2 : Forall2 P l1 l2 -> length l1 = length l2.
Proof. induction 1; cbn; auto. Qed.

(** the program once the files are read *)
Lemma imu_samples_length u k l : length (imu_samples u k l) = length l.
Proof. revert k. induction l; intros; cbn; auto. Qed.
Lemma fix_samples_length k l : length (fix_samples k l) = length l.
Proof. revert k. induction l; intros; cbn; auto. Qed.
Lemma fixes_small gs : Forall (fun g => imaginable (g_time g)) gs -> forall k, small (fix_samples k gs).
Proof. induction 1 as [|x l E F IH]; intros k; cbn; constructor; [exact E|apply IH]. Qed.

Section Whole.
Context {B : Type} (decode : list B -> Q).

Lemma whole_program c para (x : input_files B) n u mem j p0 o ds rs fixes :
  let rfu := Z.eqb (ConfigModel.i_frame c) 1 in
  let hid := fun t => ConfigModel.u_enable c && is_outage o t in
  new_outage n (ConfigModel.u_start c) (ConfigModel.u_stop c) (ConfigModel.u_len c) (ConfigModel.u_step c) = Some o ->
  (if ConfigModel.g_enable c then read_gnss (gnss_format_of (ConfigModel.g_format c)) (gf_lines x) else Ok []) = Ok fixes ->
  read_imu_file decode (ConfigModel.i_format c) (frame_of (ConfigModel.i_frame c)) x = Ok ds -> Forall2 (delivers u rfu hid) ds rs ->
  Forall (fun g => imaginable (g_time g)) fixes ->
  length rs + length fixes < n -> (Z.of_nat (length rs + length fixes) <= int_max)%Z ->
  let es := behind (ConfigModel.start_time c) (events (ConfigModel.g_enable c) rs fixes) in
  exists d0 t, api_init mem j (Some (options_of (ConfigModel.get_option c para))) (Some (init_pva_of c)) = Some (d0, RGIOE_OK) /\
    program decode c para x n u mem j p0 = Some (Done (Some t)) /\ length (t_lines t) = length es /\
    forall k, k < length es -> exists d l r, api_run d0 (calls_for rfu hid (firstn (S k) es)) = Some (d, l) /\ nth_error (t_lines t) k = Some r /\
      (d_status d = RGIOE_STATUS_NAVIGATION -> forall b, api_do d (AResult b) = Some (d, RPva r)).
Proof.
  intros rfu hid HO HG HI FD M2 L BD es. unfold program. rewrite HO, HG, HI.
  set (pc := PC _ _ _ _).
  change (add_imu _ _) with (built (ConfigModel.g_enable c) (imu_samples u 0 ds) (fix_samples 0 fixes)).
  set (I := imu_samples u 0 ds). set (G := fix_samples 0 fixes).
  assert (LI : length I = length rs) by (unfold I; rewrite imu_samples_length; exact (Forall2_len _ _ _ FD)).
  assert (LG : length G = length fixes) by (unfold G; apply fix_samples_length).
  assert (SG : small G) by (apply fixes_small; assumption).
  destruct (built_taken (ConfigModel.g_enable c) I G (ConfigModel.start_time c) n SG) as (m1 & m2 & A1 & A2); [lia|].
  set (ss := sbehind _ _) in A2.
  assert (LS : length ss <= length rs + length fixes).
  { unfold ss. eapply Nat.le_trans; [apply sbehind_length|]. unfold selected. destruct (ConfigModel.g_enable c); [|lia].
    eapply Nat.le_trans; [apply smerge_length|]. lia. }
  assert (EX : exists t, post_main pc n (ConfigModel.start_time c) (built (ConfigModel.g_enable c) I G) mem j p0
    (options_of (ConfigModel.get_option c para)) (init_pva_of c) = Some (Done (Some t))).
  { unfold post_main. rewrite A1, A2.
    destruct (api_init mem j _ _) as [[d e]|] eqn:I0; [|discriminate].
    destruct (PostTime.init_status _ _ _ _ _ _ I0) as (_ & ->).
    destruct (post_run pc (Post d (Some p0) []) ss) as [t|] eqn:P; [eauto|]. exfalso.
    apply PostProofs.post_none in P. cbn [t_dev] in P.
    destruct (ApiCases.history_defined _ _ _ _ _ (calls_of pc ss) I0 (PostTime.calls_quiet pc ss)) as (d1 & l & E); [|congruence].
    assert (K := PostEnd.imus_bound pc ss). lia. }
  destruct EX as (t & E).
  destruct (PostMain.main_run _ _ _ _ _ _ _ _ _ _ E) as (ss' & d0 & R0). exists d0, t.
  assert (I0 : api_init mem j (Some (options_of (ConfigModel.get_option c para))) (Some (init_pva_of c)) = Some (d0, RGIOE_OK)) by apply R0.
  split; [exact I0|]. split; [exact E|].
  assert (SS : ss' = ss) by (destruct R0 as ((m3 & m4 & A3 & A4) & _); congruence). subst ss'.
  assert (FM : Forall2 (means u ds fixes rfu hid) ss es).
  { apply means_behind. unfold selected, events.
    assert (FI : Forall2 (means u ds fixes rfu hid) I (map Sample rs)).
    { apply samples_mean; [exact FD|]. intros i r N. cbn [Nat.add]. now apply nth_of. }
    destruct (ConfigModel.g_enable c); [|exact FI]. apply means_merge; [exact FI|].
    apply fixes_mean. intros i g N. now apply nth_of. }
  assert (LE := Forall2_len _ _ _ FM).
  split; [rewrite <- LE; exact (PostMain.lines_length _ _ _ _ _ _ _ _ _ _ _ _ R0)|].
  intros k K. rewrite <- LE in K. destruct (PostMain.line_navigation _ _ _ _ _ _ _ _ _ _ _ _ _ R0 K) as (d & l & r & A & N & V0).
  exists d, l, r. split; [|split; [exact N|exact V0]].
  rewrite <- A. f_equal. symmetry. apply (means_calls u pc ds fixes); try reflexivity. now apply Forall2_firstn.
Qed.
End Whole.

(** the files as delivered *)
Lemma delivers_known u rfu hid r : length r = 7 ->
  delivers u rfu hid (turn (if rfu then IMU_FRAME_RFU else IMU_FRAME_FRD) (known r)) r.
Proof. intros E. do 7 (destruct r as [|? r]; [discriminate|]). destruct r; [|discriminate]. destruct rfu; split; reflexivity. Qed.
Lemma delivers_all u rfu hid rs : Forall (fun r => length r = 7) rs ->
  Forall2 (delivers u rfu hid) (map (turn (if rfu then IMU_FRAME_RFU else IMU_FRAME_FRD)) (map known rs)) rs.
Proof. induction 1; cbn [map]; constructor; auto. now apply delivers_known. Qed.
(** the sample behind a final line end *)
Lemma delivers_init u rfu hid : delivers u rfu hid (turn (if rfu then IMU_FRAME_RFU else IMU_FRAME_FRD) imu_init) [u; 0; 0; 0; 0; 0; 0]%Q.
Proof. destruct rfu; split; reflexivity. Qed.
