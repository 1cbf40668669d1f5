(** Properties C146-C148: the tool that computes wheel speeds from results (Tools/DataGenerator.cpp). *)
From Coq Require Import QArith List ZArith Reals Qreals Lra Lia.
From Verif Require Import ReaderModel StreamModel RealMath ConvertModel InsModel FusionBase KalmanModel FusionModel WheelSpec GenModel GenSpec GenProofs GenAngle GenWheel.
Import QArith ListNotations.
Local Open Scope R_scope.

(** ** C146: one wheel speed per tenth result *)
(** the line for a result: time, speed ahead over 1.4, speed down, speed to the right *)
Definition expected (r : nav_row) (w : wheel_line) : Prop :=
  let v := vehicle_velocity (euler_to_dcm (vneg three_two_four)) r in
  w_time w = Q2R (nr_time r) /\ w_forward w = vx v / (14 / 10) /\ w_down w = vz v /\ w_right w = vy v.
(** of every tenth *)
Definition tenths (rows : list nav_row) (l : list wheel_line) : Prop :=
  forall k, match nth_error rows (10 * k) with Some r => exists w, nth_error l k = Some w /\ expected r w | None => nth_error l k = None end.
Lemma line_expected : forall r, expected r (line_of r).
Proof. intros r. unfold expected, vehicle_velocity, line_of, gen_line. cbv zeta. repeat split. Qed.
Lemma to_tenths : forall rows l, (forall k, nth_error l k = option_map line_of (nth_error rows (10 * k))) -> tenths rows l.
Proof.
intros rows l H k. specialize (H k). destruct (nth_error rows (10 * k)) as [r |]; [| exact H]. exists (line_of r). split; [exact H | apply line_expected].
Qed.
(** when the text of eleven columns per result ends with the last digit *)
Theorem C146_last_digit_partial : forall rows wss fuel, Forall2 eleven rows wss -> rows <> [] -> (length rows <= fuel)%nat ->
  exists l, generate fuel false (concat wss) = Ok l /\ tenths rows l.
Proof. intros rows wss fuel F N L. destruct (generate_end rows wss fuel F N L) as [l [E H]]. exists l. split; [exact E | now apply to_tenths]. Qed.
Print Assumptions C146_last_digit_partial.
(** when it ends with a newline, the last result counts twice *)
Theorem C146_newline_partial : forall rows r wss fuel, Forall2 eleven (rows ++ [r]) wss -> (S (length rows) < fuel)%nat ->
  exists l, generate fuel true (concat wss) = Ok l /\ tenths (rows ++ [r; r]) l.
Proof. intros rows r wss fuel F L. destruct (generate_blank rows r wss fuel F L) as [l [E H]]. exists l. split; [exact E | now apply to_tenths]. Qed.
Print Assumptions C146_newline_partial.
(** REFUTED: with a newline at the end of ten, twenty, ... results there is a line too many *)
Theorem C146_newline_REFUTED : forall rows wss m fuel, Forall2 eleven rows wss -> length rows = (10 * S m)%nat -> (length rows < fuel)%nat ->
  exists l, generate fuel true (concat wss) = Ok l /\ length l = S (S m) /\ ~ tenths rows l.
Proof.
intros rows wss m fuel F L K. destruct rows as [| r0 rows]; [discriminate |].
destruct (@exists_last _ (r0 :: rows)) as [a [r E]]; [discriminate |]. rewrite E in *. rewrite app_length in L, K. simpl in L, K.
destruct (generate_blank a r wss fuel F) as [l [G H]]; [lia |]. exists l. split; [exact G |].
assert (nth_error l (S m) = Some (line_of r)) as H1.
{ rewrite H. rewrite nth_error_app2 by lia. replace (10 * S m - length a)%nat with 1%nat by lia. reflexivity. }
assert (nth_error l (S (S m)) = None) as H2.
{ rewrite H. replace (nth_error (a ++ [r; r]) (10 * S (S m))) with (@None nav_row); [reflexivity |]. symmetry. apply nth_error_None. rewrite app_length. simpl. lia. }
split.
- apply nth_error_None in H2. assert (S m < length l)%nat by (apply nth_error_Some; congruence). lia.
- intros T. specialize (T (S m)). replace (nth_error (a ++ [r]) (10 * S m)) with (@None nav_row) in T; [congruence |].
  symmetry. apply nth_error_None. rewrite app_length. simpl. lia.
Qed.
Print Assumptions C146_newline_REFUTED.
(** ten results with time, height, velocity and attitude given *)
Definition case_row (t : Q) : nav_row := NavRow 2017 t (30, 114, 20)%Q (1, 2, 0)%Q (0, 0, 90)%Q.
Definition case_words (t : Q) : list word :=
  [Whole 2017; Part 0 t (Frac t); Whole 30; Whole 114; Whole 20; Whole 1; Whole 2; Whole 0; Whole 0; Whole 0; Whole 90].
Lemma case_eleven : forall t, eleven (case_row t) (case_words t).
Proof. intros t. eexists. split; [reflexivity |]. repeat constructor. Qed.
Example C146_case : let ts := [1#2; 1; 3#2; 2; 5#2; 3; 7#2; 4; 9#2; 5]%Q in
  Forall2 eleven (map case_row ts) (map case_words ts) /\ length (map case_row ts) = (10 * 1)%nat.
Proof. split; [| reflexivity]. cbn [map]. repeat (constructor; [apply case_eleven |]). constructor. Qed.
Example C146_case_end : exists l, generate 11 false (concat (map case_words (repeat (1#2)%Q 11))) = Ok l /\ length l = 2%nat.
Proof. eexists. split; reflexivity. Qed.
Example C146_case_newline : exists l, generate 11 true (concat (map case_words (repeat (1#2)%Q 10))) = Ok l /\ length l = 2%nat.
Proof. eexists. split; reflexivity. Qed.

(** ** C147: the library's own result files *)
(** REFUTED: the second line's time is the fraction of the velocity to the east of the sixth result *)
Theorem C147_own_files_REFUTED : forall r0 r1 r2 r3 r4 r5 rs b fuel, (200 + 19 * length rs < fuel)%nat -> proper (snd (fst (fr_v r5))) ->
  exists x y t, generate fuel b (flat_map nineteen (r0 :: r1 :: r2 :: r3 :: r4 :: r5 :: rs)) = Ok (x :: y :: t) /\
  w_time x = Q2R (d_all (fr_time r0)) /\ w_time y = Q2R (d_frac (snd (fst (fr_v r5)))) /\ 0 <= w_time y < 1.
Proof.
intros r0 r1 r2 r3 r4 r5 rs b fuel F [P1 P2]. destruct (generate_full r0 r1 r2 r3 r4 r5 rs b fuel F) as [x [y [t [E [X Y]]]]].
exists x, y, t. split; [exact E |]. split; [rewrite X; reflexivity |]. split; [exact Y |]. rewrite Y. 
apply Qreals.Qle_Rle in P1. apply Qreals.Qlt_Rlt in P2. unfold Q2R in P1 at 1, P2 at 2. cbn in P1, P2. lra.
Qed.
Print Assumptions C147_own_files_REFUTED.
(** so it is not the time of any result after the first second of the week *)
Theorem C147_no_result_REFUTED : forall r0 r1 r2 r3 r4 r5 rs b fuel, (200 + 19 * length rs < fuel)%nat -> proper (snd (fst (fr_v r5))) ->
  (forall r, In r (r0 :: r1 :: r2 :: r3 :: r4 :: r5 :: rs) -> (1 <= d_all (fr_time r))%Q) ->
  exists x y t, generate fuel b (flat_map nineteen (r0 :: r1 :: r2 :: r3 :: r4 :: r5 :: rs)) = Ok (x :: y :: t) /\
  forall r, In r (r0 :: r1 :: r2 :: r3 :: r4 :: r5 :: rs) -> w_time y <> Q2R (d_all (fr_time r)).
Proof.
intros r0 r1 r2 r3 r4 r5 rs b fuel F P T. destruct (C147_own_files_REFUTED r0 r1 r2 r3 r4 r5 rs b fuel F P) as [x [y [t [E [_ [_ B]]]]]].
exists x, y, t. split; [exact E |]. intros r I C. specialize (T r I). apply Qreals.Qle_Rle in T. unfold Q2R in T at 1. cbn in T. lra.
Qed.
Print Assumptions C147_no_result_REFUTED.
(** six results, half a metre per second to the east *)
Definition half (z : Z) : decimals := Decimals z (inject_Z z + (1#2)) (1#2).
Definition case_full (t : Z) : full_row :=
  FullRow 2017 (half t) (half 30, half 114, half 20) (half 1, half 2, half 0) (half 0, half 0, half 90) (half 0, half 0, half 0) (half 0, half 0, half 0) 0 1.
Example C147_case : let rs := map case_full [100; 101; 102; 103; 104; 105]%Z in
  (forall r, In r rs -> proper (snd (fst (fr_v r))) /\ (1 <= d_all (fr_time r))%Q) /\
  exists l, generate 201 true (flat_map nineteen rs) = Ok l /\ length l = 2%nat.
Proof.
cbv zeta. split.
- intros r I. cbn [map In] in I. repeat destruct I as [<- | I]; try contradiction; (split; [split |]; apply Qle_bool_iff || (unfold Qlt; cbn; lia)); reflexivity.
- eexists. split; [vm_compute; reflexivity | reflexivity].
Qed.

(** ** C148: the generated speed in the odometer update *)
(** a filter that is where the result says, with the angles negated and the scale factor 1.4, has nothing to correct *)
Theorem C148_negated_partial : forall s atti vn t, follows s atti vn (vneg three_two_four) (14 / 10) ->
  vx (misfit s (V (w_forward (gen_line t vn atti)) 0 0)) = 0 /\
  forall s', velocity_update_f s (V (w_forward (gen_line t vn atti)) 0 0) = Some s' -> nothing (f_kf s').
Proof. exact negated_agrees. Qed.
Print Assumptions C148_negated_partial.
(** REFUTED for the installation angles the tool names: straight ahead, eight thousandths of the speed and more are corrected *)
Theorem C148_labelled_REFUTED : forall s atti v t, 0 < v -> follows s atti (straight (vneg three_two_four) atti v) three_two_four (14 / 10) ->
  w_forward (gen_line t (straight (vneg three_two_four) atti v) atti) = v / (14 / 10) /\
  vx (misfit s (V (w_forward (gen_line t (straight (vneg three_two_four) atti v) atti)) 0 0)) <= - (8 / 1000 * v).
Proof. exact labelled_differs. Qed.
Print Assumptions C148_labelled_REFUTED.
Example C148_case : forall v, let vn := straight (vneg three_two_four) vzero v in
  follows (installed (vneg three_two_four) vn) vzero vn (vneg three_two_four) (14 / 10) /\
  follows (installed three_two_four vn) vzero vn three_two_four (14 / 10) /\
  forall angles w, exists s', velocity_update_f (installed angles vn) (V w 0 0) = Some s'.
Proof. intros v vn. split; [apply installed_follows |]. split; [apply installed_follows |]. intros. apply installed_updates. Qed.
