(** Properties C125 - C128: the helper functions of the programs.
    Models: HelperModel, RowModel.  Specification: ConfigSpec, TextSpec and the definitions here. *)
From Coq Require Import QArith Qabs List String Ascii Bool ZArith NArith Reals Lra Lia.
From Verif Require Import ConfigModel ConfigSpec TextModel TextSpec TextProofs TextProofsG TextMain HelperModel HelperProofs.
Import ListNotations.
Open Scope list_scope.

(** * C125  reading up to a time *)
(** [e] is the first of the entries still to come whose time is not before [t]; [before] and [rest] are those before and behind it *)
Definition first_from {P} (t : Q) (l before : list (entry P)) (e : entry P) (rest : list (entry P)) : Prop :=
  l = before ++ e :: rest /\ Forall (fun x => (e_time x < t)%Q) before /\ (t <= e_time e)%Q.

(** success: the entries up to the first one at or behind the time are used up, and no more *)
Theorem C125_position_partial : forall P (l : list (entry P)) t before e rest d, first_from t l before e rest ->
  exists d', read_until (Reader true l) t d = (true, Reader true rest, d') /\
    (forall m, d = Some m -> exists m', d' = Some m' /\ e_time m' = e_time e /\ e_type m' = e_type e).
Proof.
  intros P l t before e rest d (-> & F & G). unfold read_until. cbn [rd_ok rd_next].
  assert (E : seek t (before ++ e :: rest) = Some (e, rest)).
  { induction F as [|x b Hx F IH]; cbn [app seek].
    - apply Qle_bool_iff in G. rewrite G. reflexivity.
    - destruct (Qle_bool t (e_time x)) eqn:C; cbn [negb]; [|exact IH].
      apply Qle_bool_iff in C. exfalso. exact (Qlt_not_le _ _ Hx C). }
  rewrite E. eexists. split; [reflexivity|]. intros m ->. eexists. split; [reflexivity|]. split; reflexivity.
Qed.
Print Assumptions C125_position_partial.

(** failure exactly if there is no such entry (or the file could not be opened, or was read to its end before); the caller's object is untouched and the reader is at its end *)
Theorem C125_failure : forall P (r : reader P) t d,
  (fst (fst (read_until r t d)) = false <-> rd_ok r = false \/ Forall (fun x => (e_time x < t)%Q) (rd_next r)) /\
  (fst (fst (read_until r t d)) = false -> snd (read_until r t d) = d /\ rd_ok (snd (fst (read_until r t d))) = false).
Proof.
  intros P [ok l] t d. unfold read_until. cbn [rd_ok rd_next]. destruct ok; [|split; [split; intros; [left|]; reflexivity|split; reflexivity]].
  destruct (seek t l) as [[e r]|] eqn:E; cbn [fst snd].
  - split; [|discriminate]. split; [discriminate|]. intros [H|H]; [discriminate|].
    apply seek_none in H. congruence.
  - split; [|split; reflexivity]. split; [|reflexivity]. intros _. right. apply seek_none, E.
Qed.
Print Assumptions C125_failure.

(** the measurement itself is never delivered: only time and type are copied, whatever the entry holds *)
Theorem C125_data_refuted : forall P (r : reader P) t (m m' : entry P),
  snd (read_until r t (Some m)) = Some m' -> e_body m' = e_body m.
Proof.
  intros P [ok l] t m m'. unfold read_until. cbn [rd_ok rd_next]. destruct ok; [|intros H; injection H as <-; reflexivity].
  destruct (seek t l) as [[e r]|]; cbn [snd]; intros H; injection H as <-; reflexivity.
Qed.
Print Assumptions C125_data_refuted.

Definition samples : list (entry nat) := [Entry 100 1 7; Entry (201 # 2) 1 8; Entry 101 1 9]%nat.
Example C125_case : first_from (1003 # 10) samples [Entry 100 1 7%nat] (Entry (201 # 2) 1 8%nat) [Entry 101 1 9%nat] /\
  read_until (Reader true samples) (1003 # 10) (Some (Entry 0 0 0%nat)) =
    (true, Reader true [Entry 101 1 9%nat], Some (Entry (201 # 2) 1 0%nat)).
Proof. split; [|reflexivity]. split; [reflexivity|]. split; [constructor; [reflexivity|constructor]|discriminate]. Qed.

(** * C126  printed sensor data *)
(** seven words, read back to five decimals for the time and six for the increments *)
Theorem C126_imu : forall d, finite (im_time d) -> Forall finite (triple_list (im_gyro d)) -> Forall finite (triple_list (im_acce d)) ->
  exists t row, print_imu d = Some t /\ numbers t = Some row /\
    told [5; 6; 6; 6; 6; 6; 6]%Z (im_time d :: triple_list (im_gyro d) ++ triple_list (im_acce d)) row.
Proof.
  intros d Ht Hg Ha. rewrite imu_line. destruct (im_gyro d) as [[g1 g2] g3], (im_acce d) as [[a1 a2] a3].
  cbn [triple_list app] in *.
  repeat match goal with H : Forall finite (_ :: _) |- _ => inversion H; clear H; subst end.
  eexists. edestruct (line_numbers [(0, 5, im_time d); (8, 6, g1); (8, 6, g2); (8, 6, g3); (8, 6, a1); (8, 6, a2); (8, 6, a3)]%nat)
    as (row & E & T); [repeat (constructor; [assumption|]); constructor|].
  exists row. split; [reflexivity|]. split; [exact E|exact T].
Qed.
Print Assumptions C126_imu.
Theorem C126_wheel : forall d, finite (ax_time d) -> finite (ax_velocity d) -> finite (ax_angular d) ->
  exists t row, print_aux d = Some t /\ numbers t = Some row /\ told [5; 6; 6]%Z [ax_time d; ax_velocity d; ax_angular d] row.
Proof.
  intros d H1 H2 H3. rewrite aux_line. eexists.
  edestruct (line_numbers [(0, 5, ax_time d); (8, 6, ax_velocity d); (8, 6, ax_angular d)]%nat) as (row & E & T);
    [repeat (constructor; [assumption|]); constructor|].
  exists row. split; [reflexivity|]. split; [exact E|exact T].
Qed.
Print Assumptions C126_wheel.
(** results: never an exception, the thirteen words of C89 *)
Theorem C126_result : forall r, finite_result r ->
  exists t row, print_nav r = Some t /\ numbers t = Some row /\ row_tells r row.
Proof.
  intros r F. rewrite nav_line. destruct (result_back r F) as (row & E & T). eauto.
Qed.
Print Assumptions C126_result.
(** a fix can never be printed: the format asks for nine values and gets eight, which is an exception *)
Theorem C126_fix_refuted : forall d, print_gnss d = None.
Proof. exact gnss_throws. Qed.
Print Assumptions C126_fix_refuted.
Example C126_case :
  print_imu {| im_time := Fin false 3700000049 10000; im_gyro := (Fin false 1 1000, Fin true 2 1000, Fin false 0 1);
               im_acce := (Fin false 1 100, Fin false 0 1, Fin true 49 1000) |} =
  Some (str "370000.00490 0.001000 -0.002000 0.000000 0.010000 0.000000 -0.049000").
Proof. vm_compute. reflexivity. Qed.
(** the text of a fix with a ninth value would be printable: the exception is due to the missing value only *)
Example C126_fix_case : format (str "{:.3f} {:.8f} {:.8f}  {:.3f}  {:.3f} {:.3f} {:.3f} {:d} {:d}")
  (map A_real (repeat (Fin false 1 2) 7) ++ [A_int 4; A_int 9]) = Some (str "0.500 0.50000000 0.50000000  0.500  0.500 0.500 0.500 4 9").
Proof. vm_compute. reflexivity. Qed.

(** * C127  the function SaveConfig *)
(** every key it writes has the value that Config::SaveTo writes, but one *)
Theorem C127_written_partial : forall c k v, lookup (save_config c) k = Some v ->
  (k = "ZUPT-Config/ZUPTA-enable"%string /\ v = S_bool (z_zupt c)) \/ lookup (save_to c) k = Some v.
Proof. exact second_save_keys. Qed.
Print Assumptions C127_written_partial.
(** the zero-angular-rate switch is replaced by the zero-velocity switch *)
Theorem C127_zupta_refuted : forall c,
  lookup (save_config c) "ZUPT-Config/ZUPTA-enable" = Some (S_bool (z_zupt c)) /\
  lookup (save_to c) "ZUPT-Config/ZUPTA-enable" = Some (S_bool (z_zupta c)).
Proof. intros c. split; reflexivity. Qed.
Print Assumptions C127_zupta_refuted.
(** exactly these keys of SaveTo are missing *)
Theorem C127_missing_refuted : forall c k,
  (lookup (save_to c) k <> None /\ lookup (save_config c) k = None) <->
  In k ["start-time"; "stop-time"; "Odometer/scale-factor"; "Odometer/scale-factor-std";
    "Output-Config/file-path"; "Output-Config/project-enable"; "Output-Config/atti-project"]%string.
Proof.
  intros c k. split.
  - intros [H N]. destruct (lookup (save_to c) k) as [v|] eqn:E; [|congruence]. exact (second_save_rest k c v E N).
  - intros I. split; [|exact (second_save_lost k c I)].
    repeat (destruct I as [<-|I]; [discriminate|]). destruct I.
Qed.
Print Assumptions C127_missing_refuted.
(** so the file cannot be loaded either, not even with the keys added that SaveTo leaves out *)
Theorem C127_load_refuted : forall c old, load_from (save_config c ++ missing_keys c) old = None.
Proof. reflexivity. Qed.
Print Assumptions C127_load_refuted.
Example C127_case : z_zupt some_config <> z_zupta some_config /\
  lookup (save_config some_config) "IMU-Config/d-rate" = Some (S_int 200) /\
  load_from (save_to some_config ++ missing_keys some_config) some_config <> None.
Proof. split; [discriminate|]. split; [reflexivity|]. vm_compute. discriminate. Qed.

(** * C128  rows of the result matrix *)
From Verif Require Import RealMath EarthModel FusionBase RowModel EarthProofs.
Import ListNotations.
Open Scope R_scope.

(** 21 numbers; all but the fifth and sixth are those of the result, in this order *)
Theorem C128_row_partial : forall n, exists east north, nav_row n =
  [nr_time n; nr_lat n; nr_lon n; nr_height n; east; north;
   vx (nr_vn n); vy (nr_vn n); vz (nr_vn n); vx (nr_atti n); vy (nr_atti n); vz (nr_atti n);
   vx (nr_pos_std n); vy (nr_pos_std n); vz (nr_pos_std n); vx (nr_vn_std n); vy (nr_vn_std n); vz (nr_vn_std n);
   vx (nr_atti_std n); vy (nr_atti_std n); vz (nr_atti_std n)] /\
  north = nr_lat n * deg * RM (nr_lat n * deg).
Proof.
  intros n. eexists _, _. split; [reflexivity|]. unfold distance4, dN. cbn [vx]. ring.
Qed.
Print Assumptions C128_row_partial.
(** the distance east of the base point (latitude and longitude 0) is wrong for every place off the diagonal: it is the
    equatorial radius times latitude minus longitude, so it grows to the north and becomes smaller to the east *)
Theorem C128_east_refuted : forall n, nth 4 (nav_row n) 0 = semi_major * (nr_lat n - nr_lon n) * deg.
Proof.
  intros n. unfold nav_row, distance4, dE, RN. cbn [app nth vy].
  rewrite !Rmult_0_l, sin_0, cos_0, !Rmult_0_r, Rminus_0_r, sqrt_1. field.
Qed.
Print Assumptions C128_east_refuted.
(** it is zero on a diagonal and not on the base meridian *)
Theorem C128_base_meridian_refuted : forall n, nr_lon n = 0 -> nr_lat n <> 0 -> nth 4 (nav_row n) 0 <> 0.
Proof.
  intros n L N. rewrite C128_east_refuted, L, Rminus_0_r. unfold semi_major, deg.
  pose proof PI_RGT_0. apply Rmult_integral_contrapositive_currified;
    [apply Rmult_integral_contrapositive_currified; [lra|exact N]|]. lra.
Qed.
Print Assumptions C128_base_meridian_refuted.
Definition case_row : nav_result :=
  {| nr_time := 370000; nr_lat := 30; nr_lon := 0; nr_height := 22; nr_vn := V 1 2 3; nr_atti := V 0 0 90;
     nr_pos_std := V 1 1 1; nr_vn_std := V 2 2 2; nr_atti_std := V 3 3 3 |}.
Example C128_case : nr_lon case_row = 0 /\ nr_lat case_row <> 0 /\ List.length (nav_row case_row) = 21%nat.
Proof. split; [reflexivity|]. split; [cbn; lra|reflexivity]. Qed.
