(** Src/DataFusion.cpp with the optional states of Src/RgioeDefine.h switched on: initial covariance, transition matrix, position design
    matrix, and which entries of the estimate the feedback reads.  Matrices are functions of row and column (numbers from 0), as the
    assignments to blocks overwrite one another.  Over the reals. *)
From Coq Require Import Reals List Bool Arith.
From Verif Require Import RealMath EarthModel ConvertModel SmoothModel InsModel FusionBase LayoutModel.
Import ListNotations.
Open Scope R_scope.

(** Eigen: a matrix of STATE_CNT columns, given by its entries *)
Definition table := nat -> nat -> R.
(** Eigen: m.block<h, w>(r, c) = b *)
Definition assign (m : table) (r c h w : nat) (b : table) : table := fun i j =>
  if (Nat.leb r i && Nat.ltb i (r + h) && Nat.leb c j && Nat.ltb j (c + w))%bool then b (i - r)%nat (j - c)%nat else m i j.
(** Eigen: Zero() *)
Definition zero_table : table := fun _ _ => 0.
(** Eigen: a 3x3 matrix by its entries *)
Definition of_mat (m : mat) : table := entry m.
(** a loop that sets the diagonal entries m(s + k, s + k), k < n, to f k *)
Fixpoint diagonal_loop (m : table) (s n : nat) (f : nat -> R) : table :=
  match n with
  | O => m
  | S k => assign (diagonal_loop m s k f) (s + k) (s + k) 1 1 (fun _ _ => f k)
  end.
(** the product of two n x n tables *)
Definition product (n : nat) (a b : table) : table := fun i j => fold_right Rplus 0 (map (fun k => a i k * b k j) (seq 0 n)).

(** Src/RgioeDataType.h:101-113, 155-182: the options for the optional states *)
Record extra := Extra { x_gs_std : vec; x_as_std : vec; x_odo_scale_std : R }.

(** Src/DataFusion.cpp:38-43: three diagonal blocks of standard deviations *)
Definition base_std (nav : navepoch) (o : option_t) : table :=
  fold_left (fun m b => assign m (3 * b) (3 * b) 3 3 (of_mat (mdiag (std_diag nav o b)))) (seq 0 5) zero_table.
(** Src/DataFusion.cpp:36-65: P before it is squared *)
Definition init_std (sel : selection) (nav : navepoch) (o : option_t) (x : extra) : table :=
  let p := base_std nav o in
  let p := if gyro_sf sel then diagonal_loop p (gyro_start sel) (gyro_size sel) (fun i => coord (x_gs_std x) i * coord (x_gs_std x) i) else p in
  let p := if acce_sf sel then diagonal_loop p (acce_start sel) (acce_size sel) (fun i => coord (x_as_std x) i * coord (x_as_std x) i) else p in
  let p := if level_arm sel then diagonal_loop p (arm_start sel) (arm_size sel) (fun _ => 1 / 1000) else p in
  if odo_sf sel then diagonal_loop p (odo_start sel) (odo_size sel) (fun _ => 1 / 1000000000) else p.
(** Src/DataFusion.cpp:66 P = P * P *)
Definition init_cov (sel : selection) (nav : navepoch) (o : option_t) (x : extra) : table :=
  product (STATE_CNT sel) (init_std sel nav o x) (init_std sel nav o x).

(** Src/DataFusion.cpp:302-341 TransferMatrix: the blocks of the fifteen states, then those of the options *)
Definition base_phi (i : ins) (o : option_t) : table := fun r c =>
  if (Nat.ltb r 15 && Nat.ltb c 15)%bool then entry (phi_block i (o_gt_corr o) (o_at_corr o) (r / 3) (c / 3)) (r mod 3) (c mod 3) else 0.
(** Src/DataFusion.cpp:302-341 TransferMatrix *)
Definition transition (sel : selection) (i : ins) (o : option_t) : table :=
  let C := n_Cbn (s_nav i) in let dt := s_dt i in
  let m := base_phi i o in
  let m := if gyro_sf sel then
      let m := assign m (gyro_start sel) (gyro_start sel) 3 3 (of_mat (msub eye (mscale (dt / o_gt_corr o) eye))) in
      assign m 9 (gyro_start sel) 3 3 (of_mat (mmul (mscale (-1) C) (mdiag (s_gyro_pre i))))
    else m in
  let m := if acce_sf sel then
      let m := assign m (acce_start sel) (acce_start sel) 3 3 (of_mat (msub eye (mscale (dt / o_at_corr o) eye))) in
      assign m 6 (acce_start sel) 3 3 (of_mat (mmul C (mdiag (s_acce_pre i))))
    else m in
  let m := if level_arm sel then diagonal_loop m (arm_start sel) (arm_size sel) (fun _ => 1 - dt / 36000) else m in
  if odo_sf sel then diagonal_loop m (odo_start sel) (odo_size sel) (fun _ => 1 - dt / 36000) else m.

(** Src/DataFusion.cpp:386-399 _posH *)
Definition position_design (sel : selection) (i : ins) (lb : vec) : table :=
  let m := fun r c => if Nat.ltb c 15 then entry (pos_h i lb (c / 3)) r (c mod 3) else 0 in
  let lat := vx (n_pos (s_nav i)) in let h := vz (n_pos (s_nav i)) in
  let vdr := V (1 / (RM lat + h)) (1 / ((RN lat + h) * cos lat)) (-1) in
  if level_arm sel then assign m 0 (arm_start sel) 3 (arm_size sel) (of_mat (mscale (-1) (mmul (mdiag vdr) (n_Cbn (s_nav i))))) else m.

(** Src/DataFusion.cpp:347-384 _feedBack: the argument is a Vec1X, a row (Src/KalmanFilter.hpp:30, Src/DataFusion.h:188); the
    blocks xd.block<h, w>(r, c) that are read, as ((h, w), (r, c)).  Single components xd[k] are counted along the row. *)
Definition feedback_reads (sel : selection) : list ((nat * nat) * (nat * nat)) :=
  ((if gyro_sf sel then [((gyro_size sel, 1), (gyro_start sel, 0))] else []) ++
  (if acce_sf sel then [((acce_size sel, 1), (acce_start sel, 0))] else []) ++
  (if level_arm sel then [((arm_size sel, 1), (arm_start sel, 0))] else []) ++
  (if odo_sf sel then [((odo_size sel, 1), (odo_start sel, 0))] else []))%nat.
(** Eigen: a block must lie inside the matrix (asserted, else memory outside the matrix is read) *)
Definition block_inside (rows cols : nat) (b : (nat * nat) * (nat * nat)) : bool :=
  let '((h, w), (r, c)) := b in (Nat.leb (r + h) rows && Nat.leb (c + w) cols)%bool.
(** Src/DataFusion.cpp _feedBack: every block that is read lies inside the state *)
Definition feedback_defined (sel : selection) : bool := forallb (block_inside 1 (STATE_CNT sel)) (feedback_reads sel).

(** App/PostDataFusion/CMakeLists.txt:18-46: the build options and the switches they define *)
Record build := Build { EST_GYRO_SCALE : bool; EST_ACCE_SCALE : bool; EST_GNSS_LEVEL_ARM : bool; EST_ODO_SCALE : bool }.
(** App/PostDataFusion/CMakeLists.txt:18-46 *)
Definition configure (b : build) : selection :=
  {| acce_sf := EST_ACCE_SCALE b || EST_ODO_SCALE b; gyro_sf := EST_GYRO_SCALE b; level_arm := EST_GNSS_LEVEL_ARM b; odo_sf := false |}.
