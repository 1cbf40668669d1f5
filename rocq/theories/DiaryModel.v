(** What the library writes to the recording when it is built with the recorder (ENABLE_FUSION_RECORDER): Src/DataFusion.cpp:172-194,
    209-221 and 252-263, Src/Alignment.cpp:147-161, Src/AttiAhrs.cpp:92-99, through the calls of Src/rgioe.cpp. The message of
    rgioe_get_result is RecordedModel. Fields are floats; the cast is left out here (PropDiary has a property about it). *)
From Coq Require Import Reals ZArith List Bool.
From Verif Require Import RealMath EarthModel ConvertModel SmoothModel InsModel FusionBase FusionModel AlignModel AhrsModel ApiModel.
Import ListNotations.
Local Open Scope R_scope.

(** Src/Recorder/RecorderType.h:23-67,82-104. [None]: infinities or not a number. The fields hdop, pdop, ns of gnss are written as
    zero (DataFusion.cpp:258-261), gnss_cnt is never written: left out. *)
Inductive msg :=
  | MImu (t : R) (acce gyro : vec)
  | MKalman (t : R) (bias : option (vec * vec))          (* accelerometer in mGal, gyroscope in degrees per hour *)
  | MMeas (t : R) (z : option vec) (r : vec)
  | MGnss (t : R) (pos : option vec) (mode : Z)
  | MAhrs (t : R) (atti : option vec)
  | MAlign (t : R) (nav : option (vec * vec * option vec)) (v_norm a_norm : R) (static yaw level : bool).

(** the device with what only the recording shows: nav.gpst and first_epoch of the filter, and the attitude filter of the
    alignment; [None]: infinities or not a number *)
Record diary := Diary { y_dev : device; y_time : R; y_first : option vec; y_ahrs : option ahrs }.

(** Src/DataFusion.cpp:172-194: the messages of TimeUpdate; nav.gpst is the time of the sample (InsCore.cpp:127) *)
Definition time_msgs (f : option fusion) (x : imu) : list msg :=
  let t := i_gpst x in
  [ MKalman t (bind f (fun s => Some (vdiv (n_ab (s_nav (f_ins s))) mGal, vscale hour (vdiv (n_gb (s_nav (f_ins s))) deg))));
    MImu t (i_acce x) (i_gyro x) ].

(** Src/DataFusion.cpp:205-221 and 238-263; f is the filter before the fix, t its nav.gpst, first its first_epoch.pos *)
Definition meas_msg (t : R) (f : option fusion) (o : option_t) (g : gnss) : msg :=
  let v x := x * x * o_gnss_scale o in
  MMeas t (bind f (fun s => Some (pos_z (f_ins s) (o_lb_gnss o) (fix_place g))))
        (V (v (vx (g_std g))) (v (vy (g_std g))) (v (vz (g_std g)))).
(** Src/DataFusion.cpp:252-263 the message gnss *)
Definition gnss_msg (t : R) (first : option vec) (g : gnss) : msg :=
  MGnss t (bind first (fun p => Some (distance6 (g_lat g * deg) (g_lon g * deg) (vx p) (vy p) (g_height g) (vz p)))) (g_mode g mod 256).
(** Src/DataFusion.cpp:205-221, 238-263: the messages of one fix, in order *)
Definition fix_msgs (t : R) (first : option vec) (f : option fusion) (o : option_t) (g : gnss) : list msg :=
  (if gnss_check g then [meas_msg t f o g] else []) ++ [gnss_msg t first g].

(** Src/Alignment.cpp:18-26 with Src/AttiAhrs.cpp:86-99: before levelling nothing; a sample after it updates the attitude filter *)
Definition align_imu_msgs (a : align) (h : option ahrs) (x : imu) : option ahrs * list msg :=
  if l_level a then
    let h' := bind h (fun h => Some (ahrs_imu h x)) in
    (h', [MAhrs (i_gpst x) (bind h' (fun h => bind (euler_vec (ahrs_atti h)) (fun e => Some (vdiv e deg))))])
  else (h, []).
(** Src/Alignment.cpp:45: the sample that levels sets the attitude filter; a and b are the alignment before and after *)
Definition align_set (a b : align) (h : option ahrs) : option ahrs :=
  if negb (l_level a) && l_level b then bind h (fun h => bind (l_nav b) (fun n => Some (ahrs_set_quat h (n_Qbn n)))) else h.
(** Src/Alignment.cpp:147-161; the first fix returns before (lines 64-67) *)
Definition align_fix_msgs (a : align) (g : gnss) : list msg :=
  if is_zero (vx (g_std (l_pre a))) then [] else
  let b := align_gnss a g in
  [MAlign (l_gpst b) (match l_nav b with Some n => Some (n_pos n, n_vn n, euler_vec (n_atti n)) | None => None end)
     (vnorm (align_step (l_pre a) g))
     (sqrt (vx (s_var_acce (l_smooth b)) + vy (s_var_acce (l_smooth b)) + vz (s_var_acce (l_smooth b))))
     (is_static (l_smooth b)) (l_yaw b) (l_level b)].

(** Src/rgioe.cpp:95-212: the messages of a call. first_epoch is set by Initialize (DataFusion.cpp:34). *)
Definition start_of (n : option navepoch) : option vec := match n with Some n => Some (n_pos n) | None => None end.
(** Src/rgioe.cpp:131-184 rgioe_timeupdate with its messages *)
Definition diary_time (y : diary) (x : imu) : option (diary * list msg) :=
  let d := y_dev y in
  match api_time d (Some x) with
  | None => None
  | Some (d', _) =>
    match d_status d with
    | RGIOE_STATUS_INIT =>
      if (o_align_mode (d_opt d) =? ALIGN_USE_GIVEN)%Z
      then Some (Diary d' (i_gpst x) (start_of (given_nav (d_given d) (d_opt d))) (y_ahrs y), time_msgs (d_fusion d') x)
      else let '(h, ms) := align_imu_msgs (d_align d) (y_ahrs y) x in
           Some (Diary d' (y_time y) (y_first y) (align_set (d_align d) (d_align d') h), ms)
    | RGIOE_STATUS_ALIGN | RGIOE_STATUS_ATTITUDE =>
      let '(h, ms) := align_imu_msgs (d_align d) (y_ahrs y) x in
      let h' := align_set (d_align d) (d_align d') h in
      match d_status d' with
      | RGIOE_STATUS_NAVIGATION => Some (Diary d' (l_gpst (d_align d')) (start_of (l_nav (d_align d'))) h', ms)
      | _ => Some (Diary d' (y_time y) (y_first y) h', ms)
      end
    | RGIOE_STATUS_NAVIGATION => Some (Diary d' (i_gpst x) (y_first y) (y_ahrs y), time_msgs (d_fusion d') x)
    | RGIOE_STATUS_ERROR => Some (Diary d' (y_time y) (y_first y) (y_ahrs y), [])
    end
  end.
(** Src/rgioe.cpp:185-212 rgioe_gnssupdate with its messages *)
Definition diary_gnss (y : diary) (g : gnss) : diary * list msg :=
  let d := y_dev y in
  let y' := Diary (fst (api_gnss d (Some g))) (y_time y) (y_first y) (y_ahrs y) in
  match d_status d with
  | RGIOE_STATUS_ALIGN | RGIOE_STATUS_ATTITUDE => (y', align_fix_msgs (d_align d) g)
  | RGIOE_STATUS_NAVIGATION => (y', fix_msgs (y_time y) (y_first y) (d_fusion d) (d_opt d) g)
  | _ => (y', [])
  end.
(** a call: rgioe_init builds a new filter and a new alignment (Src/rgioe.cpp:98-101, Alignment.cpp:168), the read-outs of
    RecordedModel are not repeated here *)
Definition diary_do (y : diary) (c : api_call) : option (diary * list msg) :=
  match c with
  | ATime (Some x) => diary_time y x
  | AGnss (Some g) => Some (diary_gnss y g)
  | AInit _ (Some ao) _ =>
    match api_do (y_dev y) c with
    | Some (d', _) => Some (Diary d' 0 (Some vzero) (if is_zero (o_rate (ao_rest ao)) then None else Some (ahrs_new (1 / o_rate (ao_rest ao)))), [])
    | None => None
    end
  | _ => match api_do (y_dev y) c with Some (d', _) => Some (Diary d' (y_time y) (y_first y) (y_ahrs y), []) | None => None end
  end.
(** the calls in sequence *)
Fixpoint diary_run (y : diary) (cs : list api_call) : option (diary * list msg) :=
  match cs with
  | [] => Some (y, [])
  | c :: r => match diary_do y c with
              | None => None
              | Some (y1, m) => match diary_run y1 r with None => None | Some (y2, l) => Some (y2, m ++ l) end
              end
  end.
