(** Specification vocabulary for the recorder file format, independent of the
    loader's own helpers. *)
From Coq Require Import NArith ZArith List Sorted.
From Verif Require Import CrcModel CrcSpec RecorderModel LoaderModel.
Import ListNotations.
Open Scope N_scope.

(** A name field: 16 bytes holding a NUL-terminated string. *)
Definition wf_name (nm : list N) : Prop := length nm = 16%nat /\ bytes nm /\ In 0 nm.

(** The string in front of the first NUL. *)
Fixpoint string_of (nm : list N) : list N :=
  match nm with
  | [] => []
  | b :: r => if b =? 0 then [] else b :: string_of r
  end.

(** A data-set description that can be registered. *)
Definition wf_config (dc : dataset_config) : Prop :=
  dc_id dc < 2^32 /\ wf_name (dc_name dc) /\
  Forall (fun ic => wf_name (ic_name ic)) (dc_items dc).

(** [m] is a record of data set [dc]: same id, one value of the right width per item. *)
Definition record_of (dc : dataset_config) (m : message) : Prop :=
  m_id m = dc_id dc /\ m_timestamp m < 2^64 /\
  map fst (m_items m) = map ic_type (dc_items dc) /\
  Forall (fun tv => snd tv < 2^(8 * N.of_nat (type_size (fst tv)))) (m_items m).

(** Number a typed bit pattern stands for after the loader's cast to [float]. *)
Definition shown (tv : base_type * N) : value := cast_float (fst tv) (snd tv).

(** The data set the user expects from the records [ms] of [dc]. *)
Definition expected (dc : dataset_config) (ms : list message) : dataset :=
  {| d_id := dc_id dc;
     d_cnt := N.of_nat (length (dc_items dc));
     d_name := string_of (dc_name dc);
     d_subs := map (fun ic => string_of (ic_name ic)) (dc_items dc);
     d_cols := map (fun j => map (fun m => shown (nth j (m_items m) (Tu8, 0))) ms)
                   (seq 0 (length (dc_items dc)));
     d_time := map m_timestamp ms |}.

(** The configuration the user expects from a header. *)
Definition expected_cfg (dc : dataset_config) : lcfg :=
  {| lc_name := dc_name dc; lc_item_cnt := N.of_nat (length (dc_items dc));
     lc_items := map (fun ic => {| li_type := type_code (ic_type ic); li_name := ic_name ic |})
                     (dc_items dc) |}.

(** Records of one id, in order. *)
Definition of_id (id : N) (ms : list message) : list message :=
  filter (fun m => m_id m =? id) ms.

(** All frames of a recording one after the other; the checksum fields of the
    message variables may hold anything before. *)
Fixpoint frames (ms : list message) (olds : list N) : option (list N) :=
  match ms, olds with
  | [], _ => Some []
  | m :: r, o :: os =>
    match record_bytes m o, frames r os with
    | Some f, Some fs => Some (f ++ fs)
    | _, _ => None
    end
  | _ :: _, [] => None
  end.

(** Bytes [off, off+n) of a file. *)
Definition sub (buf : list N) (off n : nat) : list N := firstn n (skipn off buf).

(** Byte range of the file that is an intact frame of [len] bytes (up to its end mark):
    start mark, own length, checksum over everything in front of the end mark. *)
Definition intact_frame (buf : list N) (off len : nat) : Prop :=
  (5 <= len)%nat /\ (off + (len - 4) <= length buf)%nat /\ (off + 20 <= length buf)%nat /\
  of_le (sub buf off 4) = RECORDER_HEADER /\
  of_le (sub buf (off + 16) 4) = N.of_nat len /\
  exists c, crc32_table (sub buf off (len - 8)) = Some c /\ (8 <= len)%nat /\
            sub buf (off + (len - 8)) 4 = be32 c.

(** LoadFile returns with final state [st]. *)
Definition returns (file : option (list N)) (st0 st : loader) : Prop :=
  exists fuel, load_file fuel file st0 = Some (Ret st).
(** LoadFile performs a read outside the buffer. *)
Definition reads_outside (file : option (list N)) (st0 : loader) : Prop :=
  exists fuel, load_file fuel file st0 = Some OOB.
(** LoadFile never returns. *)
Definition hangs (file : option (list N)) (st0 : loader) : Prop :=
  forall fuel, load_file fuel file st0 = None.

(** The loader shows, for each of the data sets [cfg], exactly the records [ms];
    a set without records is absent. *)
Definition holds (cfg : list dataset_config) (ms : list message) (st : loader) : Prop :=
  forall dc, In dc cfg ->
    find (dc_id dc) (l_data st)
    = match of_id (dc_id dc) ms with [] => None | _ => Some (expected dc (of_id (dc_id dc) ms)) end.
(** ... and no other data set is present *)
Definition none_else (cfg : list dataset_config) (st : loader) : Prop :=
  forall id, ~ In id (map dc_id cfg) -> find id (l_data st) = None.


(** A start mark whose frame (inside the file) fails its checksum. *)
Definition failing_frame (buf : list N) (off : nat) : Prop :=
  (off + 20 <= length buf)%nat /\ of_le (sub buf off 4) = RECORDER_HEADER /\
  let len := N.to_nat (of_le (sub buf (off + 16) 4)) in
  (4 <= len)%nat /\ (off + (len - 4) <= length buf)%nat /\
  crc32_table (sub buf off (len - 4)) <> Some 0.


(** values of items of known types laid out one after the other from address [a] *)
Fixpoint row (buf : list N) (a : nat) (ts : list base_type) : list value :=
  match ts with
  | [] => []
  | t :: r => shown (t, of_le (sub buf a (type_size t))) :: row buf (a + type_size t) r
  end.


(** accepted frames: (offset, length) in file order, disjoint *)
Definition disjoint_sorted (l : list (nat * nat)) (lim : nat) : Prop :=
  StronglySorted (fun p q => fst p + snd p <= fst q)%nat l /\
  Forall (fun p => fst p + snd p <= lim)%nat l.

Definition frame_id (buf : list N) (p : nat * nat) : N := of_le (sub buf (fst p + 4) 4).
Definition frame_time (buf : list N) (p : nat * nat) : N := of_le (sub buf (fst p + 8) 8).

(** data set [d] shows exactly the frames [l] *)
Definition shows (buf : list N) (c : lcfg) (l : list (nat * nat)) (d : dataset) : Prop :=
  d_time d = map (frame_time buf) l /\
  length (d_cols d) = length (lc_items c) /\
  Forall (fun col => length col = length (d_time d)) (d_cols d) /\
  forall ts, map (fun it => type_of_code (li_type it)) (lc_items c) = map Some ts ->
    forall j, (j < length (d_cols d))%nat ->
      nth j (d_cols d) [] = map (fun p => nth j (row buf (fst p + 20) ts) (VF32 0)) l.

Definition of_frame_id (buf : list N) (id : N) (l : list (nat * nat)) :=
  filter (fun p => frame_id buf p =? id) l.

