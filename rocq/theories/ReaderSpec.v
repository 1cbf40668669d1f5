(** Specification vocabulary for the sensor files. *)
From Coq Require Import QArith List ZArith.
From Verif Require Import MergeModel ReaderModel.
Import ListNotations.

(** a binary IMU record: 56 bytes *)
Definition whu_record {B} (r : list B) : Prop := length r = 56%nat.
(** byte range of the [k]-th double *)
Definition double_of {B} (r : list B) (k : nat) : list B := firstn 8 (skipn (8 * k) r).
(** the sample a record stands for, in the sensor's axes: time, gyro, acce *)
Definition meaning {B V} (decode : list B -> V) (r : list B) : imu_data :=
  let v k := Known (decode (double_of r k)) in
  {| i_time := v 0%nat; gyro := (v 1%nat, v 2%nat, v 3%nat); acce := (v 4%nat, v 5%nat, v 6%nat) |}.

(** the seven numbers of a sample, in the order of the file *)
Definition numbers {V} (x : imu_data) : list (value V) :=
  let '(a, b, c) := gyro x in let '(d, e, f) := acce x in [i_time x; a; b; c; d; e; f].

(** the fields of a fix as numbers *)
Definition nums (l : list Q) : list token := map T_num l.
Definition std_list (g : gnss_data) : list Q := let '(a, b, c) := g_std g in [a; b; c].
(** one line of the three text formats for the fix [g] *)
Definition pos7_line (g : gnss_data) : list token :=
  nums ([g_time g; g_lat g; g_lon g; g_height g] ++ std_list g).
Definition rtklib_line (week ns : Z) (g : gnss_data) : list token :=
  nums ([inject_Z week; g_time g; g_lat g; g_lon g; g_height g] ++ std_list g ++ [inject_Z (g_mode g); inject_Z ns]).
(** GGA lines carry two accuracy figures that are replaced by values derived from the mode *)
Definition gga_line (week ns : Z) (s0 s1 : Q) (g : gnss_data) : list token :=
  nums [inject_Z week; g_time g; g_lat g; g_lon g; g_height g; s0; s1; inject_Z (g_mode g); inject_Z ns].

(** a usable fix: positive time, known mode *)
Definition usable_fix (g : gnss_data) : Prop := 0 < g_time g /\ (0 < g_mode g)%Z.

(** integer vectors for the axes conversion *)
Definition ints (v : Z * Z * Z) : value Z * value Z * value Z := let '(x, y, z) := v in (Known x, Known y, Known z).
Definition dotZ (a b : Z * Z * Z) : Z := let '(x, y, z) := a in let '(u, v, w) := b in (x*u + y*v + z*w)%Z.
Definition crossZ (a b : Z * Z * Z) : Z * Z * Z :=
  let '(x, y, z) := a in let '(u, v, w) := b in (y*w - z*v, z*u - x*w, x*v - y*u)%Z.
