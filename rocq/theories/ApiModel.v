(** Src/rgioe.cpp: the C interface, with Src/InsCore.cpp:32-60 makeNavEpoch and Src/DataFusion.cpp:537-574 Output.
    Not modelled: the log calls, the unused parameter timestamp, the recorder (off as shipped), casts to float. *)
From Coq Require Import Reals ZArith List Bool.
From mathcomp Require Import all_ssreflect ssralg matrix.
From Verif Require Import RealMath EarthModel ConvertModel SmoothModel InsModel FusionBase Rfield KalmanModel FusionModel AlignModel.
Import ListNotations.
Local Open Scope R_scope.

(** Src/RgioeDataType.h:118-136 NavOutput = rgioe_nav_pva_t. A triple is [None] when one of its numbers is an infinity or NaN. *)
Record pva := Pva {
  p_week : nat; p_gpst : R; p_lat : R; p_lon : R; p_height : R; p_pos_std : option vec;
  p_vn : vec; p_vn_std : option vec; p_atti : option vec; p_atti_std : option vec;
  p_sensors : nat; p_gnss_mode : nat; p_gb : vec; p_ab : vec; p_gs : vec; p_as : vec; p_kd : R }.

(** Src/RgioeDataType.h:155-182: enable_gnss is an option too, no line of the library reads it *)
Record api_option := AOpt { ao_enable_gnss : bool; ao_rest : option_t }.

(** Src/RgioeDataType.h:16,18,19 and InsCore: units *)
Definition mGal : R := 1 / 100000.
(** Src/RgioeDataType.h:18 _ppm *)
Definition ppm : R := 1 / 1000000.
(** Src/RgioeDataType.h:13 _hour *)
Definition hour : R := 3600.

(** Src/InsCore.cpp:32-60 makeNavEpoch(NavOutput, RgioeOption); [None] when the given attitude is not finite *)
Definition given_nav (p : pva) (o : option_t) : option navepoch :=
  match p_atti p with
  | None => None
  | Some a =>
    let e := vscale deg a in
    let lat := p_lat p * deg in let lon := p_lon p * deg in
    Some (Nav (p_gpst p) (V lat lon (p_height p)) (p_vn p) (eu_of e) vzero vzero
            (euler_to_dcm e) (lla_to_cne lat lon) (euler_to_quaternion e) (lla_to_qne lat lon)
            (o_gb_ini o) (o_ab_ini o) (o_gs_ini o) (o_as_ini o) (o_pos_std o) (o_vel_std o) (o_att_std o)
            (o_odo_scale o) (p_sensors p) (p_gnss_mode p) (p_week p))
  end.

(** rgioe_sqrt of three diagonal entries of P from index i; a negative number has no root *)
Definition diag3 (P : 'M[R]_15) (i : nat) : vec :=
  V (P (inord i) (inord i)) (P (inord (i + 1)%N) (inord (i + 1)%N)) (P (inord (i + 2)%N) (inord (i + 2)%N)).
(** Src/DataFusion.cpp:570-574 rgioe_sqrt of three variances; [None]: the root of a negative number *)
Definition roots (v : vec) : option vec :=
  if Rle_dec 0 (vx v) then if Rle_dec 0 (vy v) then if Rle_dec 0 (vz v)
  then Some (V (sqrt (vx v)) (sqrt (vy v)) (sqrt (vz v))) else None else None else None.

(** Src/DataFusion.cpp:538-552: place and attitude with the optional projection; [None]: not finite *)
Definition out_place (s : fusion) : option vec :=
  let n := s_nav (f_ins s) in let o := f_opt s in
  if o_project o then
    if rates_defined (n_pos n) then
      let l := mvec (n_Cbn n) (o_pos_project o) in
      let lat := vx (n_pos n) in let h := vz (n_pos n) in
      Some (V (lat + 1 / (RM lat + h) * vx l) (vy (n_pos n) + 1 / ((RN lat + h) * cos lat) * vy l) (h + -1 * vz l))
    else None
  else Some (n_pos n).
(** Src/DataFusion.cpp:538-552 the attitude of the result *)
Definition out_atti (s : fusion) : euler :=
  let n := s_nav (f_ins s) in let o := f_opt s in
  if o_project o then dcm_to_euler (mmul (n_Cbn n) (euler_to_dcm (o_att_project o))) else n_atti n.

(** Src/DataFusion.cpp:537-574 Output *)
Definition output (s : fusion) : option pva :=
  let n := s_nav (f_ins s) in
  match out_place s with
  | None => None
  | Some pos =>
    Some (Pva (n_week n) (n_gpst n) (vx pos / deg) (vy pos / deg) (vz pos) (roots (diag3 (kP (f_kf s)) 0))
            (n_vn n) (roots (diag3 (kP (f_kf s)) 3))
            (match euler_vec (out_atti s) with Some e => Some (vdiv e deg) | None => None end)
            (roots (diag3 (kP (f_kf s)) 6)) (n_sensors n) (n_gnss_mode n)
            (vscale hour (vdiv (n_gb n) deg)) (vdiv (n_ab n) mGal) (vdiv (n_gs n) ppm) (vdiv (n_as n) ppm) (n_kd n))
  end.

(** Inc/rgioe.h:31-45 *)
Inductive error := RGIOE_OK | RGIOE_NULL_INPUT | RGIOE_FAULT_CONFIG | RGIOE_IN_INITIALIZE | RGIOE_UNIMPLEMENTED.
(** Inc/rgioe.h:38-45 rgioe_status_t *)
Inductive status := RGIOE_STATUS_INIT | RGIOE_STATUS_ALIGN | RGIOE_STATUS_ATTITUDE | RGIOE_STATUS_NAVIGATION | RGIOE_STATUS_ERROR.
(** Src/RgioeDataType.h:44-48 *)
Definition ALIGN_USE_GIVEN : Z := 2.

(** Src/rgioe.cpp:79-85 RgioeData_t. [d_fusion = None]: the filter contains an infinity or a NaN; it goes on counting
    samples in its detector, which is [d_det]. [d_opt] is the member opt without enable_gnss. *)
Record device := Dev {
  d_status : status; d_opt : option_t; d_given : pva; d_align : align; d_fusion : option fusion; d_det : smooth }.
(** Src/rgioe.cpp: assignment to the member status *)
Definition d_with_status (d : device) (s : status) : device := Dev s (d_opt d) (d_given d) (d_align d) (d_fusion d) (d_det d).
(** Src/rgioe.cpp: the alignment is changed in place *)
Definition d_with_align (d : device) (a : align) : device := Dev (d_status d) (d_opt d) (d_given d) a (d_fusion d) (d_det d).
(** Src/rgioe.cpp: the filter is changed in place *)
Definition d_with_fusion (d : device) (f : option fusion) (sm : smooth) : device :=
  Dev (d_status d) (d_opt d) (d_given d) (d_align d) f sm.

(** Src/StaticDetect.h: the detector a new filter has (Src/DataFusion.cpp:15) *)
Definition fusion_smooth : smooth := smooth_new five_nano 2 10.
(** Src/rgioe.cpp:103 memset(&rd->cur_pva, 0, ...) *)
Definition pva_zero : pva :=
  Pva 0 0 0 0 0 (Some vzero) vzero (Some vzero) (Some vzero) (Some vzero) 0 0 vzero vzero vzero vzero 0.

(** what the members without an initialiser hold: part of Ins, opt{} of the filter, vn_pre *)
Record junk := Junk { j_ins : ins; j_opt : option_t; j_vpre : vec }.

(** Src/rgioe.cpp:95-124 rgioe_init. [None]: undefined behaviour, line 98 dereferences opt before it is tested. *)
Definition api_init (d : device) (j : junk) (opt : option api_option) (init_nav : option pva) : option (device * error) :=
  match opt with
  | None => None
  | Some ao =>
    let o := ao_rest ao in
    let df := fusion_new (j_ins j) (j_opt j) in
    let am := align_new (j_vpre j) o in
    match init_nav with
    | None =>
      if (o_align_mode o =? ALIGN_USE_GIVEN)%Z
      then Some (Dev (d_status d) o pva_zero am (Some df) fusion_smooth, RGIOE_FAULT_CONFIG)
      else Some (Dev RGIOE_STATUS_INIT o (d_given d) (align_option am o) (Some df) fusion_smooth, RGIOE_OK)
    | Some p => Some (Dev RGIOE_STATUS_INIT o p (align_option am o) (Some df) fusion_smooth, RGIOE_OK)
    end
  end.

(** df.TimeUpdate(imu); the outer [None]: overflow of a counter of the detector *)
Definition df_time (f : option fusion) (det : smooth) (x : imu) : option (option fusion * smooth) :=
  match smooth_update det x with
  | None => None
  | Some sm => Some (bind f (fun s => time_update s x), sm)
  end.
(** df.Initialize(nav, opt) *)
Definition df_init (f : option fusion) (nav : option navepoch) (o : option_t) : option fusion :=
  bind f (fun s => bind nav (fun n => initialize s n o)).

(** Src/rgioe.cpp:133-176 rgioe_timeupdate. [None]: undefined behaviour *)
Definition api_time (d : device) (x : option imu) : option (device * error) :=
  match x with
  | None => Some (d, RGIOE_NULL_INPUT)
  | Some x =>
    match d_status d with
    | RGIOE_STATUS_INIT =>
      if (o_align_mode (d_opt d) =? ALIGN_USE_GIVEN)%Z then
        let f := df_init (d_fusion d) (given_nav (d_given d) (d_opt d)) (d_opt d) in
        match df_time f (d_det d) x with
        | None => None
        | Some (f', sm) => Some (d_with_status (d_with_fusion d f' sm) RGIOE_STATUS_NAVIGATION, RGIOE_OK)
        end
      else
        match align_imu (d_align d) x with
        | None => None
        | Some a => Some (d_with_status (d_with_align d a) RGIOE_STATUS_ALIGN, RGIOE_OK)
        end
    | RGIOE_STATUS_ALIGN =>
      match align_imu (d_align d) x with
      | None => None
      | Some a => Some (d_with_status (d_with_align d a) (if l_level a then RGIOE_STATUS_ATTITUDE else RGIOE_STATUS_ALIGN), RGIOE_OK)
      end
    | RGIOE_STATUS_ATTITUDE =>
      match align_imu (d_align d) x with
      | None => None
      | Some a =>
        if l_level a && l_yaw a then
          Some (d_with_status (d_with_fusion (d_with_align d a) (df_init (d_fusion d) (l_nav a) (d_opt d)) (d_det d))
                  RGIOE_STATUS_NAVIGATION, RGIOE_OK)
        else Some (d_with_align d a, RGIOE_OK)
      end
    | RGIOE_STATUS_NAVIGATION =>
      match df_time (d_fusion d) (d_det d) x with
      | None => None
      | Some (f', sm) => Some (d_with_fusion d f' sm, RGIOE_OK)
      end
    | RGIOE_STATUS_ERROR => Some (d, RGIOE_OK)
    end
  end.

(** Src/rgioe.cpp:186-212 rgioe_gnssupdate *)
Definition api_gnss (d : device) (g : option gnss) : device * error :=
  match g with
  | None => (d, RGIOE_NULL_INPUT)
  | Some g =>
    match d_status d with
    | RGIOE_STATUS_ALIGN | RGIOE_STATUS_ATTITUDE => (d_with_align d (align_gnss (d_align d) g), RGIOE_OK)
    | RGIOE_STATUS_NAVIGATION => (d_with_fusion d (bind (d_fusion d) (fun s => gnss_update s g)) (d_det d), RGIOE_OK)
    | _ => (d, RGIOE_OK)
    end
  end.

(** what the caller's buffers hold after a read-out; a [None] inside is a triple with infinities or NaN *)
Definition df_output (d : device) : option pva := bind (d_fusion d) output.
(** Src/rgioe.cpp:223-235 rgioe_get_atti: attitude and its accuracy *)
Definition api_atti (d : device) : option vec * option vec :=
  (bind (df_output d) p_atti, bind (df_output d) p_atti_std).
(** Src/rgioe.cpp:244-256 rgioe_get_pos *)
Definition api_pos (d : device) : option vec * option vec :=
  (bind (df_output d) (fun p => Some (V (p_lat p) (p_lon p) (p_height p))), bind (df_output d) p_atti_std).
(** Src/rgioe.cpp:265-277 rgioe_get_vel *)
Definition api_vel (d : device) : option vec * option vec :=
  (bind (df_output d) (fun p => Some (p_vn p)), bind (df_output d) p_vn_std).
(** Src/rgioe.cpp:284-319 rgioe_get_result: the caller's structure afterwards; [None]: numbers that are not finite *)
Definition api_result (d : device) (p : pva) : option pva :=
  match d_status d with
  | RGIOE_STATUS_ALIGN =>
    Some (Pva (p_week p) (l_gpst (d_align d)) (p_lat p) (p_lon p) (p_height p) (p_pos_std p) (p_vn p) (p_vn_std p) (p_atti p)
            (p_atti_std p) (p_sensors p) (p_gnss_mode p) (p_gb p) (p_ab p) (p_gs p) (p_as p) (p_kd p))
  | RGIOE_STATUS_ATTITUDE =>
    Some (Pva (p_week p) (l_gpst (d_align d)) (p_lat p) (p_lon p) (p_height p) (p_pos_std p) (p_vn p) (p_vn_std p)
            (bind (l_nav (d_align d)) (fun n => bind (euler_vec (n_atti n)) (fun e => Some (vdiv e deg))))
            (bind (l_nav (d_align d)) (fun n => Some (n_att_std n)))
            (p_sensors p) (p_gnss_mode p) (p_gb p) (p_ab p) (p_gs p) (p_as p) (p_kd p))
  | RGIOE_STATUS_NAVIGATION => df_output d
  | _ => Some p
  end.

(** a call of the interface; [AInit] carries what uninitialised memory happens to hold *)
Inductive api_call :=
  | AInit (j : junk) (opt : option api_option) (init_nav : option pva)
  | ATime (x : option imu) | AGnss (g : option gnss)
  | AAtti | APos | AVel | AStatus | AResult (p : pva) | ADeinit.
(** what the caller gets *)
Inductive answer := RCode (e : error) | RTriple (v std : option vec) | RStatus (s : status) | RPva (p : option pva).
(** Src/rgioe.cpp:279-282 rgioe_get_status, 321-325 rgioe_deinit *)
Definition api_do (d : device) (c : api_call) : option (device * answer) :=
  match c with
  | AInit j o n => match api_init d j o n with Some (d', e) => Some (d', RCode e) | None => None end
  | ATime x => match api_time d x with Some (d', e) => Some (d', RCode e) | None => None end
  | AGnss g => let '(d', e) := api_gnss d g in Some (d', RCode e)
  | AAtti => let '(v, s) := api_atti d in Some (d, RTriple v s)
  | APos => let '(v, s) := api_pos d in Some (d, RTriple v s)
  | AVel => let '(v, s) := api_vel d in Some (d, RTriple v s)
  | AStatus => Some (d, RStatus (d_status d))
  | AResult p => Some (d, RPva (api_result d p))
  | ADeinit => Some (d, RCode RGIOE_OK)
  end.
(** a history of calls: the device afterwards and all answers *)
Fixpoint api_run (d : device) (cs : list api_call) : option (device * list answer) :=
  match cs with
  | [] => Some (d, [])
  | c :: r =>
    match api_do d c with
    | None => None
    | Some (d1, a) => match api_run d1 r with None => None | Some (d2, l) => Some (d2, a :: l) end
    end
  end.
