(** App/PostDataFusion/PostDataFusion.cpp:30-105 from the configuration and the contents of the two input files to the results: the
    readers (ReaderModel), the data manager (MergeModel), the options (ConfigModel), the outage plan (OutageModel) and the loop
    (PostModel) put together. Simplifications: those of the parts; numbers are not rounded to float; memory that was never written holds
    the arbitrary number [u]; a file is given in the two views a reader can have of it, characters cut into tokens and bytes. Not modelled: files
    that cannot be opened, the output file (TextModel), the recording. *)
From Coq Require Import QArith Qreals Reals ZArith List Bool.
From Verif Require Import MergeModel OutageModel SmoothModel FusionBase ApiModel PostModel ReaderModel.
From Verif Require ConfigModel RealMath.
Notation vec := RealMath.vec. Notation V3 := RealMath.V.
Import ListNotations.

(** the input files *)
Record input_files (B : Type) := Files {
  if_tokens : list token; if_blank_end : bool; if_bytes : list B;     (* IMU file *)
  gf_lines : list (list token) }.                                     (* GNSS file, cut at the line ends *)
Arguments Files {B}. Arguments if_tokens {B}. Arguments if_blank_end {B}. Arguments if_bytes {B}. Arguments gf_lines {B}.

(** one IMU sample in memory: time, three gyro values, three accelerometer values *)
Definition imu7 := list (value Q).

Section Readers.
Context {B : Type} (decode : list B -> Q).

(** Config.h:46: the number in the configuration as an enumerator *)
Definition frame_of (z : Z) : imu_frame := if Z.eqb z 1 then IMU_FRAME_RFU else IMU_FRAME_FRD.
(** the seven doubles of an ImuData_t, FileIO.h:138-149 *)
Definition of_imu_data (d : imu_data (V := Q)) : imu7 :=
  let '(g1, g2, g3) := gyro d in let '(a1, a2, a3) := acce d in [i_time d; g1; g2; g3; a1; a2; a3].
(** member k of the seven *)
Definition at_ (l : imu7) (k : nat) : value Q := nth k l Indet.
(** the seven doubles as an ImuData_t, FileIO.h:138-149 *)
Definition to_imu_data (l : imu7) : imu_data (V := Q) :=
  {| i_time := at_ l 0; gyro := (at_ l 1, at_ l 2, at_ l 3); acce := (at_ l 4, at_ l 5, at_ l 6) |}.
(** FileIO.cpp:243-249 *)
Definition turn (f : imu_frame) (l : imu7) : imu7 := of_imu_data (to_frd Qopp f (to_imu_data l)).

(** FileIO.h:152-160, make_shared: time has no initial value, the arrays are zero *)
Definition fresh_imu : imu7 := Indet :: repeat (Known 0%Q) 6.

(** FileIO.cpp:219-225 IMU_FILE_IMD: [ifs.read] with the address of [imu], a shared_ptr, and its size reads into the smart pointer, not into the sample it
    points to. As soon as a byte arrives the pointer is destroyed: undefined behaviour. An empty file leaves it alone. *)
Definition read_imd (f : imu_frame) (bytes : list B) : result (list imu7) :=
  match bytes with
  | [] => Ok [turn f (Indet :: repeat (Known 0%Q) 6)]
  | _ => Undef
  end.

(** DataManager.cpp:43-54 with FileIO.cpp:198-252; unknown formats give one sample and end *)
Definition read_imu_file (format : Z) (f : imu_frame) (x : input_files B) : result (list imu7) :=
  if Z.eqb format 0 then
    match read_imu_txt (2 + length (if_tokens x)) (if_blank_end x) true (if_tokens x) with
    | Ok l => Ok (map (turn f) l) | Undef => Undef | Hang => Hang
    end
  else if Z.eqb format 1 then read_imd f (if_bytes x)
  else if Z.eqb format 2 then
    match read_whu decode Qopp (2 + length (if_bytes x)) f (if_bytes x) with
    | Ok l => Ok (map of_imu_data l) | Undef => Undef | Hang => Hang
    end
  else Ok [fresh_imu].

(** FileIO.h:31-40 *)
Definition gnss_format_of (z : Z) : gnss_format :=
  if Z.eqb z 0 then GNSS_TXT_POS_7 else if Z.eqb z 1 then GNSS_10_LINES else if Z.eqb z 4 then RTKLIB_TXT_POS
  else if Z.eqb z 6 then GNSS_TXT_GGA else OTHER_FORMAT.

(** ** samples of the data manager: [s_tag] is the place in the file *)
Definition num (u : Q) (v : value Q) : Q := match v with Known q => q | Indet => u end.
(** DataManager.cpp:43-54 AddFile: the queue of the IMU file *)
Fixpoint imu_samples (u : Q) (k : nat) (l : list imu7) : list sample :=
  match l with
  | [] => []
  | d :: r => {| s_type := DATA_TYPE_IMU; s_time := num u (at_ d 0); s_gpst := 0; s_tag := k |} :: imu_samples u (S k) r
  end.
(** FileIO.h:163-180: the member gpst of a fix is 0, no reader sets it *)
Fixpoint fix_samples (k : nat) (l : list gnss_data) : list sample :=
  match l with
  | [] => []
  | g :: r => {| s_type := DATA_TYPE_GNSS; s_time := g_time g; s_gpst := 0; s_tag := k |} :: fix_samples (S k) r
  end.

(** DataManager.cpp:101-103 ImuData_t::toRgioeData *)
Definition rgioe_imu (u : Q) (d : imu7) : imu :=
  let x k := Q2R (num u (at_ d k)) in Imu (x 0%nat) (V3 (x 1%nat) (x 2%nat) (x 3%nat)) (V3 (x 4%nat) (x 5%nat) (x 6%nat)).
(** DataManager.cpp:86-95 GnssData_t::toRgioeData *)
Definition rgioe_fix (g : gnss_data) : gnss :=
  let h := to_rgioe g in let '(a, b, c) := g_std h in
  Gnss (Q2R (g_lat h)) (Q2R (g_lon h)) (Q2R (g_height h)) (V3 (Q2R a) (Q2R b) (Q2R c)) (Q2R (g_time h)) (g_mode h).
(** a fix of zeros, for an index outside the file (never used) *)
Definition no_fix : gnss_data := {| g_time := 0; g_lat := 0; g_lon := 0; g_height := 0; g_std := (0, 0, 0)%Q; g_mode := 0 |}.

(** ** the options in the form the library gets them *)
Definition vec_of (v : ConfigModel.vec3) : vec := V3 (Q2R (ConfigModel.x3 v)) (Q2R (ConfigModel.y3 v)) (Q2R (ConfigModel.z3 v)).
(** an array of three members as a vector *)
Definition vec_f (f : nat -> R) : vec := V3 (f 0%nat) (f 1%nat) (f 2%nat).
(** three members as a vector *)
Definition vec_r (v : R * R * R) : vec := let '(x, y, z) := v in V3 x y z.
(** RgioeOption, RgioeDataType.h: the options of Config::GetOption as the argument of rgioe_init *)
Definition options_of (o : ConfigModel.option_t) : api_option :=
  let p := ConfigModel.op_para o in
  AOpt (ConfigModel.op_gnss o)
    (Opt (ConfigModel.arw p) (ConfigModel.vrw p) (vec_f (ConfigModel.ab_ini p)) (vec_f (ConfigModel.gb_ini p))
       (vec_f (ConfigModel.as_ini p)) (vec_f (ConfigModel.gs_ini p)) (vec_f (ConfigModel.ab_std p)) (vec_f (ConfigModel.gb_std p))
       (ConfigModel.at_corr p) (ConfigModel.gt_corr p)
       (IZR (ConfigModel.op_rate o)) (ConfigModel.op_align o) (Q2R (ConfigModel.op_align_thr o))
       (vec_of (ConfigModel.op_lb o)) (Q2R (ConfigModel.op_gnss_scale o))
       (ConfigModel.op_nhc o) (Q2R (fst (ConfigModel.op_nhc_std o))) (Q2R (snd (ConfigModel.op_nhc_std o)))
       (ConfigModel.op_zupt o) (Q2R (ConfigModel.op_zupt_std o)) (ConfigModel.op_zupta o) (Q2R (ConfigModel.op_zupta_std o))
       (ConfigModel.op_odo o) (Q2R (ConfigModel.op_odo_std o)) (Q2R (ConfigModel.op_odo_scale o)) (vec_of (ConfigModel.op_lb_wheel o))
       (vec_r (ConfigModel.op_angle_bv o))
       (vec_of (ConfigModel.op_pos_std o)) (vec_of (ConfigModel.op_vel_std o)) (vec_of (ConfigModel.op_atti_std o))
       (ConfigModel.op_project o) (vec_of (ConfigModel.op_pos_project o)) (vec_r (ConfigModel.op_atti_project o))).
(** Config.h:88 ([NavOutput init_pva{0}]) and Config.cpp:223-234: the given initial state *)
Definition init_pva_of (c : ConfigModel.config) : pva :=
  let o := V3 0%R 0%R 0%R in
  Pva (Z.to_nat (ConfigModel.a_week c)) (Q2R (ConfigModel.a_gpst c)) (Q2R (ConfigModel.a_lat c)) (Q2R (ConfigModel.a_lon c)) (Q2R (ConfigModel.a_height c))
    (Some o) (vec_of (ConfigModel.a_vn c)) (Some o) (Some (vec_of (ConfigModel.a_atti c))) (Some o) 0 0 o o o o 0%R.

(** PostDataFusion.cpp:41-95. [None]: it never ends (within [n] turns of each loop); [Some Undefined]: undefined behaviour;
    [Some (Done None)]: undefined behaviour in the library. *)
Definition program (c : ConfigModel.config) (para : ConfigModel.imu_para) (x : input_files B) (n : nat) (u : Q)
    (mem : device) (j : junk) (p0 : pva) : option (outcome (option post)) :=
  match new_outage n (ConfigModel.u_start c) (ConfigModel.u_stop c) (ConfigModel.u_len c) (ConfigModel.u_step c) with
  | None => None
  | Some o =>
    match (if ConfigModel.g_enable c then read_gnss (gnss_format_of (ConfigModel.g_format c)) (gf_lines x) else Ok []) with
    | Hang => None
    | Undef => Some Undefined
    | Ok fixes =>
      match read_imu_file (ConfigModel.i_format c) (frame_of (ConfigModel.i_frame c)) x with
      | Hang => None
      | Undef => Some Undefined
      | Ok imus =>
        let m := add_imu (imu_samples u 0 imus) (add_gnss (ConfigModel.g_enable c) (fix_samples 0 fixes) new_manager) in
        post_main
          (PC (ConfigModel.u_enable c) o (fun s => rgioe_imu u (nth (s_tag s) imus fresh_imu)) (fun s => rgioe_fix (nth (s_tag s) fixes no_fix)))
          n (ConfigModel.start_time c) m mem j p0 (options_of (ConfigModel.get_option c para)) (init_pva_of c)
      end
    end
  end.
End Readers.
