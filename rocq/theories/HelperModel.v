(** Model of the helper functions of App/AppCommon that the other models leave out: the second function that saves a
    configuration (Config.cpp:17-78), ReaderBase::ReadUntil (FileIO.cpp:419-430), the operators that print sensor
    data (FileIO.cpp:12-24, 52-93, 110-122) and NavWriter::ConvertNavToDouble (FileIO.cpp:152-171). *)
From Coq Require Import QArith List String Ascii Bool ZArith NArith.
From Verif Require Import ConfigModel TextModel.
Import ListNotations.

(** * Config.cpp:17-78  SaveConfig(cfg, path); documents as in ConfigModel *)
Open Scope string_scope.
(** Config.cpp:17-78 SaveConfig(cfg, path) *)
Definition save_config (c : config) : doc :=
  ([("IMU-Config/file-path", S_str (i_path c)); ("IMU-Config/d-rate", S_int (i_rate c));
   ("IMU-Config/format", S_int (i_format c)); ("IMU-Config/parameter-path", S_str (i_para c));
   ("IMU-Config/frame", S_int (i_frame c));
   ("GNSS-Config/enable", S_bool (g_enable c)); ("GNSS-Config/file-path", S_str (g_path c));
   ("GNSS-Config/format", S_int (g_format c))] ++ save3 "GNSS-Config/level-arm" (g_arm c) ++
  [("GNSS-Config/double-antenna-enable", S_bool (g_double c)); ("GNSS-Config/antenna-pitch", S_num (g_pitch c));
   ("GNSS-Config/antenna-yaw", S_num (g_yaw c));
   ("Odometer/enable", S_bool (o_enable c)); ("Odometer/odometer-std", S_num (o_std c));
   ("Odometer/file-path", S_str (o_path c)); ("Odometer/NHC-enable", S_bool (o_nhc c));
   ("Odometer/NHC-std/0", S_num (fst (o_nhc_std c))); ("Odometer/NHC-std/1", S_num (snd (o_nhc_std c)))] ++
  save3 "Odometer/angle-bv" (o_angle c) ++ save3 "Odometer/wheel-level-arm" (o_arm c) ++
  [("GNSS-Config/columns/0", S_int (idx (g_index c) 0)); ("GNSS-Config/columns/1", S_int (idx (g_index c) 1));
   ("GNSS-Config/columns/2", S_int (idx (g_index c) 2)); ("GNSS-Config/columns/3", S_int (idx (g_index c) 3));
   ("GNSS-Config/columns/4", S_int (idx (g_index c) 4)); ("GNSS-Config/columns/5", S_int (idx (g_index c) 5));
   ("GNSS-Config/columns/6", S_int (idx (g_index c) 6)); ("GNSS-Config/columns/7", S_int (idx (g_index c) 7));
   ("GNSS-Config/columns/8", S_int (idx (g_index c) 8));
   ("ZUPT-Config/ZUPT-enable", S_bool (z_zupt c)); ("ZUPT-Config/ZUPTA-enable", S_bool (z_zupt c));
   ("ZUPT-Config/zupt-std", S_num (z_zupt_std c)); ("ZUPT-Config/zupta-std", S_num (z_zupta_std c));
   ("ZUPT-Config/zupt-window", S_int (z_window c)); ("ZUPT-Config/static-wide", S_int (z_wide c));
   ("ZUPT-Config/threshold", S_num (z_threshold c));
   ("Align-Config/mode", S_int (a_mode c)); ("Align-Config/velocity-threshold", S_int (truncate (a_threshold c)));
   ("Align-Config/init-PVA/week", S_int (a_week c)); ("Align-Config/init-PVA/gpst", S_num (a_gpst c));
   ("Align-Config/init-PVA/lat", S_num (a_lat c)); ("Align-Config/init-PVA/lon", S_num (a_lon c));
   ("Align-Config/init-PVA/height", S_num (a_height c))] ++
  save3 "Align-Config/init-PVA/vn" (a_vn c) ++ save3 "Align-Config/init-PVA/atti" (a_atti c) ++
  [("Outage-Config/enable", S_bool (u_enable c)); ("Outage-Config/start", S_num (u_start c));
   ("Outage-Config/stop", S_num (u_stop c)); ("Outage-Config/step", S_num (u_step c));
   ("Outage-Config/outage", S_num (u_len c))])%list.

Open Scope list_scope.
(** * FileIO.cpp:419-430  ReaderBase::ReadUntil *)
Section Until.
Context {P : Type}.
(** FileIO.h:130-136: the members of BaseData_t, and those of the derived class *)
Record entry := Entry { e_time : Q; e_type : nat; e_body : P }.
(** the member [ok_], and what the next calls of ReadNext deliver before they return nullptr *)
Record reader := Reader { rd_ok : bool; rd_next : list entry }.

(** the do-while loop: the first entry with time >= gpst and the entries behind it; [None]: ReadNext returned nullptr *)
Fixpoint seek (gpst : Q) (l : list entry) : option (entry * list entry) :=
  match l with
  | [] => None
  | e :: r => if negb (Qle_bool gpst (e_time e)) then seek gpst r else Some (e, r)
  end.

(** [pdata]: what the caller's object holds, [None] for a null pointer.  [*pdata = *data] has the static type BaseData_t
    on both sides: time and type are assigned, the members of the derived class are not.
    ReadNext clears [ok_] when it returns nullptr (FileIO.cpp:211-213, 264-267). *)
Definition read_until (r : reader) (gpst : Q) (pdata : option entry) : bool * reader * option entry :=
  if rd_ok r then
    match seek gpst (rd_next r) with
    | None => (false, Reader false [], pdata)
    | Some (e, rest) =>
      (true, Reader true rest,
       match pdata with Some d => Some (Entry (e_time e) (e_type e) (e_body d)) | None => None end)
    end
  else (false, r, pdata).
End Until.
Arguments entry P : clear implicits. Arguments reader P : clear implicits.

(** * fmt::format, as far as it is used: literal text and replacement fields "{:[width][.precision]type}" *)
Inductive arg := A_real (x : num) | A_int (z : Z).
(** fmt (library): one element of a parsed format string *)
Inductive item := I_char (c : ascii) | I_field (width : nat) (prec : option nat) (kind : ascii).

(** fmt (library): a decimal digit of a width or precision *)
Definition digit_of (c : ascii) : option nat :=
  let n := nat_of_ascii c in if (48 <=? n)%nat && (n <=? 57)%nat then Some (n - 48)%nat else None.
(** a number, up to the first character that is no digit *)
Fixpoint number (acc : option nat) (t : text) : option nat * text :=
  match t with
  | c :: r => match digit_of c with
              | Some d => number (Some (10 * (match acc with Some a => a | None => 0 end) + d)%nat) r
              | None => (acc, t)
              end
  | [] => (acc, [])
  end.
(** what follows "{:" ; [None]: not a field of this form *)
Definition field (t : text) : option (item * text) :=
  let '(w, t1) := number None t in
  let '(p, t2) := match t1 with
                  | c :: r => if Ascii.eqb c "."%char then number None r else (None, t1)
                  | [] => (None, t1)
                  end in
  match t2 with
  | k :: c :: r => if Ascii.eqb c "}"%char then Some (I_field (match w with Some n => n | None => 0%nat end) p k, r) else None
  | _ => None
  end.
(** fmt (library): a format string as a list of elements; [None]: none of this form *)
Fixpoint parse (fuel : nat) (t : text) : option (list item) :=
  match fuel with
  | O => None
  | S k =>
    match t with
    | [] => Some []
    | c :: r =>
      if Ascii.eqb c "{"%char then
        match r with
        | c' :: r' =>
          if Ascii.eqb c' ":"%char then
            match field r' with
            | Some (f, rest) => match parse k rest with Some l => Some (f :: l) | None => None end
            | None => None
            end
          else None
        | [] => None
        end
      else match parse k r with Some l => Some (I_char c :: l) | None => None end
    end
  end.
(** 'f' takes a floating-point number (six decimals if none are given), 'd' an integer *)
Definition show_arg (w : nat) (p : option nat) (k : ascii) (a : arg) : option text :=
  match a with
  | A_real x => if Ascii.eqb k "f"%char then Some (pad w (print_fixed (match p with Some n => n | None => 6%nat end) x)) else None
  | A_int z => if Ascii.eqb k "d"%char then Some (pad w (print_int z)) else None
  end.
(** a field without argument: format_error "argument not found"; arguments that are left over are ignored *)
Fixpoint render (l : list item) (args : list arg) : option text :=
  match l with
  | [] => Some []
  | I_char c :: r => match render r args with Some t => Some (c :: t) | None => None end
  | I_field w p k :: r =>
    match args with
    | [] => None
    | a :: args' =>
      match show_arg w p k a, render r args' with
      | Some t, Some t' => Some (t ++ t')
      | _, _ => None
      end
    end
  end.
(** [None]: an exception *)
Definition format (f : text) (args : list arg) : option text :=
  match parse (S (List.length f)) f with Some l => render l args | None => None end.

(** FileIO.cpp:12-24, 110-122: three members of an array *)
Definition triple := (num * num * num)%type.
(** FileIO.cpp:12-24, 110-122: three members of an array, as arguments *)
Definition reals (v : triple) : list arg := let '(x, y, z) := v in [A_real x; A_real y; A_real z].

(** FileIO.cpp:12-18 RgioeImuData *)
Record imu_rec := { im_time : num; im_gyro : triple; im_acce : triple }.
(** FileIO.cpp:12-18 operator<< for RgioeImuData *)
Definition print_imu (d : imu_rec) : option text :=
  format (str "{:.5f} {:8f} {:8f} {:8f} {:8f} {:8f} {:8f}") (A_real (im_time d) :: reals (im_gyro d) ++ reals (im_acce d)).
(** FileIO.cpp:20-24 AuxiliaryData *)
Record aux_rec := { ax_time : num; ax_velocity : num; ax_angular : num }.
(** FileIO.cpp:20-24 operator<< for AuxiliaryData *)
Definition print_aux (d : aux_rec) : option text :=
  format (str "{:.5f} {:8f} {:8f}") [A_real (ax_time d); A_real (ax_velocity d); A_real (ax_angular d)].
(** FileIO.cpp:52-71 NavOutput *)
Definition print_nav (r : TextModel.result) : option text :=
  format (str "{:4d} {:2f} {:.12f} {:.12f} {:.4f} {:10.6f} {:10.6f} {:10.6f} {:10.6f} {:10.6f} {:10.6f} {:d} {:d}")
    ([A_int (r_week r); A_real (r_gpst r); A_real (r_lat r); A_real (r_lon r); A_real (r_height r)] ++ reals (r_vn r) ++ reals (r_atti r) ++
     [A_int (Z.of_N (r_mode r)); A_int (Z.of_N (r_sensors r))]).
(** FileIO.cpp:110-122 RgioeGnssData: nine fields, eight arguments *)
Record gnss_rec := { gn_time : num; gn_lat : num; gn_lon : num; gn_height : num; gn_std : triple; gn_mode : Z }.
(** FileIO.cpp:110-122 operator<< for RgioeGnssData *)
Definition print_gnss (d : gnss_rec) : option text :=
  format (str "{:.3f} {:.8f} {:.8f}  {:.3f}  {:.3f} {:.3f} {:.3f} {:d} {:d}")
    ([A_real (gn_time d); A_real (gn_lat d); A_real (gn_lon d); A_real (gn_height d)] ++ reals (gn_std d) ++ [A_int (gn_mode d)]).
