(** C163: what the Python tools write and read. Models: PyTextModel, PyInsModel. Specification: TextSpec (words, numbers, [decimals]) and here. *)
From Coq Require Import List NArith ZArith QArith Qabs Qreals Reals Ascii String Bool Lia Lra.
From Verif Require Import RealMath EarthModel ConvertModel ConvertProofs SmoothModel InsModel PyInsModel PyInsProofs TextModel TextSpec TextProofs TextProofsG TextMain HelperProofs PyTextModel PyTextProofs.
Import ListNotations.
Open Scope list_scope.

(** finite values, with a time of the week *)
Definition writable (p : pytext) : Prop :=
  finite (p_time p) /\ (0 <= num_value (p_time p) <= 604800)%Q /\ Forall finite (values p).

(** every line of a file has seventeen words, the numbers that were written, each to its decimals *)
Theorem C163_file : forall ps, Forall writable ps ->
  Forall2 (fun p line => exists w row, numbers line = Some (w :: row) /\ (w == inject_Z (p_week p))%Q /\
    told [5; 15; 15; 10; 10; 10; 10; 6; 6; 6; 0; 0; 0; 0; 0; 0]%Z (p_time p :: values p) row) ps (text_lines (py_file ps)).
Proof.
  intros ps H. unfold py_file. rewrite lines_of by (intros; apply line_nl).
  induction H as [|p ps (A & B & C) _ IH]; cbn [map]; constructor; [apply line_back; assumption|exact IH].
Qed.
Print Assumptions C163_file.

(** the eleven cells of [str(nav)] *)
Theorem C163_str : forall p, finite (p_time p) -> Forall finite (values p) ->
  exists w row, all_some (map read_number (pieces ","%char (py_str p))) = Some (w :: row) /\ (w == inject_Z (p_week p))%Q /\
    told [4; 8; 8; 4; 4; 4; 4; 4; 4; 4]%Z (p_time p :: firstn 9 (values p)) row.
Proof. exact str_back. Qed.
Print Assumptions C163_str.

(** a time from one million seconds on fills its thirteen characters: it is joined to the week, and one number is missing *)
Theorem C163_long_time_refuted : forall p, finite (p_time p) -> (1000000 <= num_value (p_time p))%Q -> Forall finite (values p) ->
  forall row, numbers (py_line p) = Some row -> List.length row = 16%nat /\
    told [15; 15; 10; 10; 10; 10; 6; 6; 6; 0; 0; 0; 0; 0; 0]%Z (values p) (tl row).
Proof.
  intros p Ft B F row H. destruct (line_fused p Ft B F row H) as (w & r & -> & G). cbn [tl]. split; [|exact G].
  cbn [List.length]. f_equal. assert (L : forall A B (R : A -> B -> Prop) a b, Forall2 R a b -> List.length a = List.length b) by (induction 1; cbn; congruence).
  rewrite <- (L _ _ _ _ _ G), combine_length. unfold values.
  destruct (p_vn p) as [[v1 v2] v3], (p_att p) as [[a1 a2] a3], (p_gb p) as [[g1 g2] g3], (p_ab p) as [[b1 b2] b3]. reflexivity.
Qed.
Print Assumptions C163_long_time_refuted.

(** ** the state that is made from the row *)
Open Scope R_scope.
Definition value (x : num) : R := Q2R (num_value x).
Lemma decimals_R k x q : decimals (Z.of_nat k) (num_value x) q -> Rabs (Q2R q - value x) <= / 2 / 10 ^ k.
Proof.
  unfold decimals, value. intros H. apply Qabs_Qle_condition in H. destruct H as [A B]. apply Qle_Rle in A, B.
  rewrite Q2R_minus in A, B.
  assert (E : Q2R ((1 # 2) * pow10 (- Z.of_nat k)) = / 2 / 10 ^ k).
  { rewrite Q2R_mult. assert (E1 : Q2R (1 # 2) = / 2) by (unfold Q2R; simpl; lra). rewrite E1. unfold Rdiv. f_equal.
    assert (E2 : Q2R (pow10 (Z.of_nat k)) = 10 ^ k).
    { rewrite (Qeq_eqR _ _ (pow10_nat k)). unfold Q2R, inject_Z. cbn [Qnum Qden]. rewrite N2Z.inj_pow, nat_N_Z.
      rewrite <- pow_IZR. rewrite Rinv_1, Rmult_1_r. reflexivity. }
    rewrite (Qeq_eqR _ _ (pow10_inv _)). rewrite Q2R_inv by (intros Z0; assert (P := pow10_pos (Z.of_nat k)); rewrite Z0 in P; discriminate).
    rewrite E2. reflexivity. }
  rewrite Q2R_opp, E in A. rewrite E in B. apply Rabs_le. lra.
Qed.
(** a component written with [k] decimals *)
Definition near (k : nat) (x : num) (y : R) : Prop := Rabs (y - value x) <= / 2 / 10 ^ k.
(** angles are written in degrees and kept in radians *)
Definition near_deg (k : nat) (x : num) (y : R) : Prop := Rabs (y - deg (value x)) <= deg (/ 2 / 10 ^ k).
Lemma deg_near k x q : Rabs (Q2R q - value x) <= / 2 / 10 ^ k -> Rabs (Q2R q * PI / 180 - deg (value x)) <= deg (/ 2 / 10 ^ k).
Proof.
  intros H. unfold deg. replace (Q2R q * PI / 180 - value x * PI / 180) with ((Q2R q - value x) * (PI / 180)) by (unfold Rdiv; ring).
  rewrite Rabs_mult. assert (P := PI_RGT_0). rewrite (Rabs_pos_eq (PI / 180)) by lra.
  replace (/ 2 / 10 ^ k * PI / 180) with (/ 2 / 10 ^ k * (PI / 180)) by (unfold Rdiv; ring). apply Rmult_le_compat_r; lra.
Qed.

(** time, position and velocity come back to the printed decimals (positions to fifteen decimals of a degree) *)
Theorem C163_state_partial : forall p, writable p -> exists row n, numbers (py_line p) = Some row /\ py_of_row row = Some n /\
  near 5 (p_time p) (y_time n) /\ near_deg 15 (p_lat p) (y_lat n) /\ near_deg 15 (p_lon p) (y_lon n) /\ near 10 (p_h p) (y_h n) /\
  (let '(v1, v2, v3) := p_vn p in near 10 v1 (vx (y_Vn n)) /\ near 10 v2 (vy (y_Vn n)) /\ near 10 v3 (vz (y_Vn n))) /\
  (let '(r, q, h) := p_att p in exists r' q' h', y_att n = Eu (RealMath.Fin r') (RealMath.Fin q') h' /\ near_deg 6 r r' /\ near_deg 6 q q' /\ near_deg 6 h h').
Proof.
  intros p (A & B & C). destruct (line_back p A B C) as (w & row & E & _ & G). exists (w :: row). unfold values in G.
  destruct (p_vn p) as [[v1 v2] v3], (p_att p) as [[a1 a2] a3], (p_gb p) as [[g1 g2] g3], (p_ab p) as [[b1 b2] b3].
  unfold told, places in G. cbn [map combine] in G.
  repeat match goal with H : Forall2 _ (_ :: _) _ |- _ => inversion H; clear H; subst end. cbn [fst snd] in *.
  repeat match goal with H : decimals _ _ _ |- _ => first [apply (decimals_R 5) in H|apply (decimals_R 15) in H|apply (decimals_R 10) in H|apply (decimals_R 6) in H|apply (decimals_R 0) in H] end.
  eexists. split; [exact E|]. split; [reflexivity|]. unfold y_nav. cbn [y_time y_lat y_lon y_h y_Vn y_att vx vy vz]. unfold near, near_deg.
  repeat split; try assumption; try (apply deg_near; assumption).
  eexists _, _, _. split; [reflexivity|]. repeat split; apply deg_near; assumption.
Qed.
Print Assumptions C163_state_partial.

(** all parts of the state that is made from a row describe the same place and attitude: those of the row *)
Theorem C163_start : forall row n, py_of_row row = Some n -> exists r p h, y_att n = Eu (RealMath.Fin r) (RealMath.Fin p) h /\
  y_Cbn n = euler_to_dcm (V r p h) /\ quaternion_to_dcm (y_Qbn n) = y_Cbn n /\ qnorm2 (y_Qbn n) = 1 /\
  quaternion_to_dcm (y_Qne n) = lla_to_cne (y_lat n) (y_lon n) /\ qnorm2 (y_Qne n) = 1 /\ y_dvn n = vzero /\ y_vf n = vzero.
Proof.
  intros row n H. do 11 (destruct row as [|? row]; [discriminate|]). injection H as <-. unfold y_nav. cbn [y_att y_Cbn y_Qbn y_Qne y_lat y_lon y_dvn y_vf vx vy vz].
  eexists _, _, _. split; [reflexivity|]. split; [reflexivity|].
  split; [exact (euler_dcm_quaternion (V _ _ _))|]. split; [apply euler_quaternion_unit|].
  rewrite y_qne_same. split; [apply qne_dcm|]. split; [apply qne_unit|]. split; reflexivity.
Qed.
Print Assumptions C163_start.

(** the biases do not come back: whatever the row says, the state starts without them *)
Theorem C163_biases_refuted : forall row n, py_of_row row = Some n -> y_gb n = vzero /\ y_ab n = vzero.
Proof.
  intros row n. unfold py_of_row. do 11 (destruct row as [|? row]; [discriminate|]). intros H. injection H as <-. split; reflexivity.
Qed.
Print Assumptions C163_biases_refuted.

(** a line of the default run, and one whose biases are seven degrees per hour and forty milligal *)
Definition sample : pytext :=
  PyText 2147 (TextModel.Fin false 3700000049 10000) (TextModel.Fin false 305 10) (TextModel.Fin false 1143 10) (TextModel.Fin true 21 1)
    (TextModel.Fin false 1 2, TextModel.Fin true 1 4, TextModel.Fin false 0 1) (TextModel.Fin false 1 8, TextModel.Fin true 0 1, TextModel.Fin false 359 1)
    (TextModel.Fin false 7 1, TextModel.Fin true 3 2, TextModel.Fin false 0 1) (TextModel.Fin false 40 1, TextModel.Fin false 0 1, TextModel.Fin true 8 1).
Example C163_case : writable sample /\ py_str sample = str "2147,370000.0049,30.50000000,114.30000000,-21.0000,0.5000,-0.2500,0.0000,0.1250,-0.0000,359.0000" /\
  List.length (text_lines (py_file [sample; sample])) = 2%nat.
Proof.
  split; [|split; vm_compute; reflexivity]. split; [exact I|]. split; [split; vm_compute; discriminate|]. repeat constructor.
Qed.
Example C163_long_case : exists row, numbers (py_line (PyText 2147 (TextModel.Fin false 1600000000 1) (p_lat sample) (p_lon sample) (p_h sample)
    (p_vn sample) (p_att sample) (p_gb sample) (p_ab sample))) = Some row.
Proof. eexists. vm_compute. reflexivity. Qed.
