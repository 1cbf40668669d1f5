From Coq Require Import NArith ZArith List Lia Bool.
From Verif Require Import CrcModel CrcSpec CrcProofs RecorderModel LoaderModel LoaderSpec.
Import ListNotations.
Open Scope N_scope.

Local Opaque crc32_table le32 N.pow.
Arguments N.pow : simpl never.

(** ** bytes and little-endian encodings *)
Lemma land_ff x : N.land x 0xff = x mod 256.
Proof. change 0xff with (N.ones 8). apply N.land_ones. Qed.

Lemma le_bytes_length n x : length (le_bytes n x) = n.
Proof. revert x. induction n; intros; [reflexivity|]. cbn [le_bytes length]. now rewrite IHn. Qed.

Lemma le_bytes_bytes n x : bytes (le_bytes n x).
Proof.
  revert x. induction n; intros; [constructor|]. cbn [le_bytes]. constructor; [|apply IHn].
  rewrite land_ff. apply N.mod_lt. discriminate.
Qed.

Lemma of_le_bytes n : forall x, x < 2^(8 * N.of_nat n) -> of_le (le_bytes n x) = x.
Proof.
  induction n; intros x H.
  - replace (8 * N.of_nat 0) with 0 in H by lia. rewrite N.pow_0_r in H. simpl. lia.
  - cbn [le_bytes of_le]. rewrite land_ff, N.shiftr_div_pow2.
    rewrite IHn.
    + change (2^8) with 256. pose proof (N.div_mod x 256). lia.
    + apply N.div_lt_upper_bound; [discriminate|].
      rewrite <- N.pow_add_r. replace (8 + 8 * N.of_nat n) with (8 * N.of_nat (S n)) by lia. exact H.
Qed.

Lemma le32_eq x : le32 x = le_bytes 4 x.
Proof.
  Local Transparent le32. unfold le32, le_bytes. rewrite !N.shiftr_shiftr. reflexivity.
  Local Opaque le32.
Qed.

Lemma le32_length x : length (le32 x) = 4%nat.
Proof. rewrite le32_eq. apply le_bytes_length. Qed.
Lemma le32_bytes x : bytes (le32 x).
Proof. rewrite le32_eq. apply le_bytes_bytes. Qed.
Lemma of_le32 x : x < 2^32 -> of_le (le32 x) = x.
Proof. intros. rewrite le32_eq. apply of_le_bytes. exact H. Qed.

Lemma bytes_app a b : bytes (a ++ b) <-> bytes a /\ bytes b.
Proof. apply Forall_app. Qed.

(** ** slices *)
Lemma firstn_skipn_mid {A} (pre mid post : list A) :
  firstn (length mid) (skipn (length pre) (pre ++ mid ++ post)) = mid.
Proof.
  rewrite skipn_app, skipn_all2 by lia. rewrite Nat.sub_diag. simpl.
  rewrite firstn_app, firstn_all, Nat.sub_diag. simpl. apply app_nil_r.
Qed.

Lemma slice_mid pre mid post off n :
  off = N.of_nat (length pre) -> n = N.of_nat (length mid) ->
  slice (pre ++ mid ++ post) off n = Ret mid.
Proof.
  intros -> ->. unfold slice. rewrite !app_length, !Nat2N.id.
  destruct (N.leb_spec (N.of_nat (length pre) + N.of_nat (length mid))
             (N.of_nat (length pre + (length mid + length post)))); [|lia].
  now rewrite firstn_skipn_mid.
Qed.

Lemma rd32_mid pre x post off :
  off = N.of_nat (length pre) -> x < 2^32 ->
  rd32 (pre ++ le32 x ++ post) off = Ret x.
Proof.
  intros. unfold rd32. rewrite slice_mid by (auto; rewrite le32_length; reflexivity).
  simpl. now rewrite of_le32.
Qed.

Lemma crc_range_mid pre mid post off n c :
  off = N.of_nat (length pre) -> n = N.of_nat (length mid) -> crc32_table mid = Some c ->
  crc_range (pre ++ mid ++ post) off n = Ret c.
Proof. intros. unfold crc_range. rewrite slice_mid by auto. simpl. now rewrite H1. Qed.

(** ** maps *)
Lemma find_cons {A} k k' (v : A) m :
  find k ((k', v) :: m) = if k' =? k then Some v else find k m.
Proof. unfold find. simpl. destruct (k' =? k); reflexivity. Qed.

Lemma find_app {A} k (m m' : list (N * A)) :
  find k (m ++ m') = match find k m with Some v => Some v | None => find k m' end.
Proof.
  induction m as [|[k' v] m IH]; [reflexivity|].
  rewrite <- app_comm_cons, !find_cons. destruct (k' =? k); auto.
Qed.

Lemma find_assign {A} k k' (v : A) m :
  find k (assign k' v m) = if k' =? k then Some v else find k m.
Proof.
  unfold assign. destruct (find k' m) eqn:E.
  - revert a E. induction m as [|[k1 v1] m IH]; intros a E; [discriminate|].
    cbn [map fst]. rewrite find_cons in E.
    destruct (N.eqb_spec k1 k') as [->|].
    + rewrite !find_cons. destruct (N.eqb_spec k' k); auto.
      destruct (find k' m) eqn:E'.
      * rewrite (IH _ eq_refl). now destruct (N.eqb_spec k' k).
      * assert (M : map (fun p => if fst p =? k' then (k', v) else p) m = m).
        { clear -E'. induction m as [|[k2 v2] m IH]; [reflexivity|].
          rewrite find_cons in E'. cbn [map fst]. destruct (k2 =? k'); [discriminate|].
          now rewrite IH. }
        now rewrite M.
    + rewrite !find_cons. rewrite (IH _ E).
      destruct (N.eqb_spec k1 k); [subst|reflexivity].
      destruct (N.eqb_spec k' k); [congruence|reflexivity].
  - rewrite find_app, find_cons. destruct (N.eqb_spec k' k).
    + subst. now rewrite E.
    + destruct (find k m); reflexivity.
Qed.

Lemma find_insert {A} k k' (v : A) m :
  find k (insert k' v m) = match find k m with Some w => Some w
                           | None => if k' =? k then Some v else None end.
Proof.
  unfold insert. destruct (find k' m) eqn:E.
  - destruct (find k m) eqn:E'; auto. destruct (N.eqb_spec k' k); [congruence|reflexivity].
  - rewrite find_app, find_cons. destruct (find k m); auto.
Qed.

(** ** names *)
Lemma c_str_string nm : In 0 nm -> c_str nm = Ret (string_of nm).
Proof.
  induction nm as [|b r IH]; intro H; [destruct H|].
  cbn [c_str string_of]. destruct (N.eqb_spec b 0); [reflexivity|].
  destruct H as [H|H]; [congruence|]. rewrite IH by auto. reflexivity.
Qed.

Lemma c_strs_string l : Forall (In 0) l -> c_strs l = Ret (map string_of l).
Proof.
  induction l as [|a r IH]; intro H; [reflexivity|].
  inversion H; subst. cbn [c_strs map]. rewrite c_str_string, IH by auto. reflexivity.
Qed.

(** ** header *)
Lemma type_code_lt t : type_code t < 2^32.
Proof. destruct t; reflexivity. Qed.
Lemma type_of_code_code t : type_of_code (type_code t) = Some t.
Proof. destruct t; reflexivity. Qed.

Lemma item_header_length ic : wf_name (ic_name ic) -> length (item_header ic) = 20%nat.
Proof. intros [H _]. unfold item_header. rewrite app_length, le32_length, H. reflexivity. Qed.

Lemma items_length items : Forall (fun ic => wf_name (ic_name ic)) items ->
  length (flat_map item_header items) = (20 * length items)%nat.
Proof.
  induction 1; [reflexivity|]. cbn [flat_map length].
  rewrite app_length, item_header_length, IHForall by auto. lia.
Qed.

Lemma load_items_ok items : forall pre post pb,
  Forall (fun ic => wf_name (ic_name ic)) items ->
  pb = N.of_nat (length pre) ->
  load_items (pre ++ flat_map item_header items ++ post) pb (length items)
  = Ret (lc_items (expected_cfg {| dc_id := 0; dc_name := []; dc_items := items |}),
         N.of_nat (length pre + length (flat_map item_header items))).
Proof.
  induction items as [|ic r IH]; intros pre post pb H Hpb.
  - cbn [load_items length flat_map]. rewrite Nat.add_0_r, Hpb. reflexivity.
  - inversion H as [|? ? Hic Hr]; subst.
    cbn [length load_items flat_map].
    replace (pre ++ (item_header ic ++ flat_map item_header r) ++ post)
      with (pre ++ le32 (type_code (ic_type ic)) ++ (ic_name ic ++ flat_map item_header r ++ post))
      by (unfold item_header; rewrite <- !app_assoc; reflexivity).
    rewrite rd32_mid by (auto; apply type_code_lt). cbn [bind].
    replace (pre ++ le32 (type_code (ic_type ic)) ++ ic_name ic ++ flat_map item_header r ++ post)
      with ((pre ++ le32 (type_code (ic_type ic))) ++ ic_name ic ++ flat_map item_header r ++ post)
      by (rewrite <- !app_assoc; reflexivity).
    destruct Hic as [Hl [Hb Hz]].
    rewrite slice_mid by (rewrite ?app_length, ?le32_length, ?Hl; lia). cbn [bind].
    replace ((pre ++ le32 (type_code (ic_type ic))) ++ ic_name ic ++ flat_map item_header r ++ post)
      with ((pre ++ item_header ic) ++ flat_map item_header r ++ post)
      by (unfold item_header; rewrite <- !app_assoc; reflexivity).
    rewrite IH.
    + cbn [bind fst snd]. unfold expected_cfg. cbn. f_equal. f_equal.
      rewrite !app_length. lia.
    + auto.
    + rewrite app_length, item_header_length by (repeat split; auto). lia.
Qed.

Lemma dataset_header_length dc : wf_config dc ->
  length (dataset_header dc) = (24 + 20 * length (dc_items dc))%nat.
Proof.
  intros [_ [[Hn _] Hi]]. unfold dataset_header.
  rewrite !app_length, !le32_length, Hn, items_length by auto. lia.
Qed.

Definition add_cfgs (cfg : list dataset_config) (m : list (N * lcfg)) : list (N * lcfg) :=
  fold_left (fun m dc => insert (dc_id dc) (expected_cfg dc) m) cfg m.
Definition add_errs (cfg : list dataset_config) (m : list (N * errcode)) : list (N * errcode) :=
  fold_left (fun m dc => insert (dc_id dc) E_OK m) cfg m.

Lemma load_sets_ok cfg : forall pre post pb cfgs errs,
  Forall wf_config cfg ->
  Forall (fun dc => N.of_nat (length (dc_items dc)) < 2^32) cfg ->
  pb = N.of_nat (length pre) ->
  load_sets (pre ++ flat_map dataset_header cfg ++ post) pb (length cfg) cfgs errs
  = Ret (add_cfgs cfg cfgs, add_errs cfg errs,
         N.of_nat (length pre + length (flat_map dataset_header cfg))).
Proof.
  induction cfg as [|dc r IH]; intros pre post pb cfgs errs H Hn Hpb.
  - cbn [load_sets length flat_map]. rewrite Nat.add_0_r, Hpb. reflexivity.
  - inversion H as [|? ? Hdc Hr]; subst. inversion Hn as [|? ? Hc Hcr]; subst.
    pose proof Hdc as Hdc'. destruct Hdc as [Hid [[Hl [Hb Hz]] Hi]].
    cbn [length load_sets flat_map].
    set (R := flat_map dataset_header r).
    set (I := flat_map item_header (dc_items dc)).
    replace (pre ++ (dataset_header dc ++ R) ++ post)
      with (pre ++ le32 (dc_id dc) ++ (le32 (u32 (N.of_nat (length (dc_items dc)))) ++ dc_name dc ++ I ++ R ++ post))
      by (unfold dataset_header; rewrite <- !app_assoc; reflexivity).
    rewrite rd32_mid by auto. cbn [bind].
    rewrite app_assoc.
    rewrite rd32_mid by (try apply u32_lt; rewrite app_length, le32_length; lia). cbn [bind].
    rewrite u32_id by auto.
    rewrite (app_assoc (pre ++ _)).
    rewrite slice_mid by (rewrite ?app_length, ?le32_length, ?Hl; lia). cbn [bind].
    rewrite (app_assoc ((pre ++ _) ++ _)).
    unfold I. rewrite Nat2N.id.
    rewrite load_items_ok by (auto; rewrite !app_length, !le32_length, Hl; lia).
    cbn [bind fst snd].
    replace ((((pre ++ le32 (dc_id dc)) ++ le32 (N.of_nat (length (dc_items dc)))) ++ dc_name dc) ++
      flat_map item_header (dc_items dc) ++ R ++ post)
      with ((pre ++ dataset_header dc) ++ R ++ post)
      by (unfold dataset_header; rewrite (u32_id (N.of_nat _)) by auto; rewrite <- !app_assoc; reflexivity).
    unfold R. rewrite IH; auto.
    + cbn [add_cfgs add_errs fold_left]. f_equal. f_equal.
      rewrite !app_length. lia.
    + rewrite !app_length, !le32_length, Hl. rewrite dataset_header_length by auto.
      rewrite items_length by auto. lia.
Qed.

Lemma find_add_cfgs cfg : forall m k,
  find k (add_cfgs cfg m) =
    match find k m with
    | Some c => Some c
    | None => match List.find (fun dc => dc_id dc =? k) cfg with
              | Some dc => Some (expected_cfg dc) | None => None end
    end.
Proof.
  induction cfg as [|dc r IH]; intros m k.
  - cbn. destruct (find k m); reflexivity.
  - cbn [add_cfgs fold_left List.find]. unfold add_cfgs in IH. rewrite IH, find_insert.
    destruct (find k m); auto. destruct (dc_id dc =? k); auto.
Qed.

Lemma item_header_bytes ic : wf_name (ic_name ic) -> bytes (item_header ic).
Proof. intros [_ [H _]]. unfold item_header. apply bytes_app. split; auto. apply le32_bytes. Qed.

Lemma flat_map_bytes {A} (f : A -> list N) (P : A -> Prop) l :
  (forall a, P a -> bytes (f a)) -> Forall P l -> bytes (flat_map f l).
Proof.
  intros Hf. induction 1; [constructor|]. cbn [flat_map]. apply bytes_app. split; auto.
Qed.

Lemma dataset_header_bytes dc : wf_config dc -> bytes (dataset_header dc).
Proof.
  intros [_ [[_ [H _]] Hi]]. unfold dataset_header.
  rewrite !bytes_app. repeat split; auto using le32_bytes.
  eapply flat_map_bytes; [|apply Hi]. apply item_header_bytes.
Qed.

Lemma version_lt : RECORDER_VERSION_BITS < 2^32. Proof. reflexivity. Qed.

(** shape of a written header *)
Lemma write_header_shape cfg hdr : cfg <> [] -> write_header cfg = Some hdr ->
  exists pre c, hdr = pre ++ le32 (REVERT_CRC32 c) ++ le32 RECORDER_HEADER_END_MARK /\
    crc32_table pre = Some c /\
    pre = le32 RECORDER_HEADER_START_MARK ++ le32 (N.of_nat (length pre + 8)) ++ header_body cfg /\
    (length pre + 8 <= 4096)%nat.
Proof.
  intros Hne H. destruct cfg as [|dc r]; [congruence|]. unfold write_header in H.
  set (cfg := dc :: r) in *. clearbody cfg.
  set (pre := le32 RECORDER_HEADER_START_MARK ++ le32 (u32 (N.of_nat (8 + length (header_body cfg)) + 8)) ++ header_body cfg) in *.
  destruct (Nat.leb_spec (length pre + 8) RECORDER_HEADER_MAX_LENGTH) as [Hle|]; [|discriminate].
  destruct (crc32_table pre) as [c|] eqn:Ec; [|discriminate].
  apply some_inj in H. subst hdr. exists pre, c.
  assert (Lp : length pre = (8 + length (header_body cfg))%nat).
  { unfold pre. rewrite !app_length, !le32_length. lia. }
  split; [reflexivity|]. split; [exact Ec|]. split; [|exact Hle].
  rewrite Lp. unfold pre at 1. do 2 f_equal. f_equal. unfold RECORDER_HEADER_MAX_LENGTH in Hle.
  rewrite u32_id; [lia|]. change (2^32) with 4294967296. lia.
Qed.

Lemma header_body_bytes cfg : Forall wf_config cfg -> bytes (header_body cfg).
Proof.
  intro H. unfold header_body. rewrite !bytes_app. repeat split; auto using le32_bytes.
  eapply flat_map_bytes; [|apply H]. apply dataset_header_bytes.
Qed.

Lemma cfg_small cfg : Forall wf_config cfg -> (length (header_body cfg) <= 4096)%nat ->
  N.of_nat (length cfg) < 2^32 /\ Forall (fun dc => N.of_nat (length (dc_items dc)) < 2^32) cfg.
Proof.
  intros H Hl. unfold header_body in Hl. rewrite !app_length, !le32_length in Hl.
  assert (X : (length cfg <= length (flat_map dataset_header cfg))%nat /\
     Forall (fun dc => (length (dc_items dc) <= length (flat_map dataset_header cfg))%nat) cfg).
  { clear Hl. induction H as [|dc r Hd Hr [IH1 IH2]]; [split; auto|].
    cbn [flat_map length]. rewrite app_length, dataset_header_length by auto. split; [lia|].
    constructor; [lia|]. eapply Forall_impl; [|apply IH2]. cbn. intros. lia. }
  change (2^32) with 4294967296. destruct X as [X1 X2]. split; [lia|].
  eapply Forall_impl; [|apply X2]. cbn. intros. lia.
Qed.

Lemma hdr_len_arith n : (n + 8 <= 4096)%nat ->
  u32 (N.of_nat (n + 8) + 2^32 - 4) = N.of_nat (n + 4).
Proof.
  intro H. change (2^32) with 4294967296. rewrite u32_mod.
  replace (N.of_nat (n + 8) + 4294967296 - 4) with (N.of_nat (n + 4) + 1 * 4294967296) by lia.
  change (2^32) with 4294967296. rewrite N.mod_add by discriminate. apply N.mod_small. lia.
Qed.

Lemma load_header_ok cfg hdr post st : cfg <> [] -> Forall wf_config cfg ->
  write_header cfg = Some hdr ->
  load_header (hdr ++ post) st =
    Ret ({| l_data := l_data st; l_cfgs := add_cfgs cfg (l_cfgs st); l_version := RECORDER_VERSION_BITS;
            l_file_offset := l_file_offset st; l_header_size := N.of_nat (length hdr);
            l_err := l_err st; l_errs := add_errs cfg (l_errs st); l_strs := l_strs st |},
         N.of_nat (length hdr - 4)).
Proof.
  intros Hne Hwf Hw.
  destruct (write_header_shape cfg hdr Hne Hw) as [pre [c [Eh [Ec [Ep Hl]]]]].
  assert (Lh : length hdr = (length pre + 8)%nat) by (rewrite Eh, !app_length, !le32_length; lia).
  assert (Lb : length pre = (8 + length (header_body cfg))%nat).
  { rewrite Ep at 1. rewrite !app_length, !le32_length. lia. }
  destruct (cfg_small cfg Hwf) as [Hs1 Hs2]; [lia|].
  assert (Bp : bytes pre).
  { rewrite Ep, !bytes_app. repeat split; auto using le32_bytes, header_body_bytes. }
  assert (Hc : c < 2^32).
  { rewrite crc32_table_soft in Ec by auto. apply some_inj in Ec. subst c. apply crc32_soft_lt. }
  assert (Hres : crc32_table (pre ++ le32 (REVERT_CRC32 c)) = Some 0).
  { rewrite le32_revert by auto. now apply residue_iff. }
  assert (Hpl : N.of_nat (length pre + 8) < 2^32) by (change (2^32) with 4294967296; lia).
  unfold load_header.
  (* start mark *)
  assert (E1 : hdr ++ post = [] ++ le32 RECORDER_HEADER_START_MARK ++
    (le32 (N.of_nat (length pre + 8)) ++ header_body cfg ++ le32 (REVERT_CRC32 c) ++ le32 RECORDER_HEADER_END_MARK ++ post)).
  { rewrite Eh, Ep at 1. rewrite <- !app_assoc. reflexivity. }
  rewrite E1 at 1. rewrite rd32_mid by (reflexivity). cbn [bind].
  rewrite N.eqb_refl. cbn [negb].
  (* length *)
  assert (E2 : hdr ++ post = le32 RECORDER_HEADER_START_MARK ++
    le32 (N.of_nat (length pre + 8)) ++ (header_body cfg ++ le32 (REVERT_CRC32 c) ++ le32 RECORDER_HEADER_END_MARK ++ post)).
  { rewrite E1. reflexivity. }
  rewrite E2 at 1. rewrite rd32_mid by (rewrite ?le32_length; auto). cbn [bind].
  (* crc *)
  assert (E3 : hdr ++ post = [] ++ (pre ++ le32 (REVERT_CRC32 c)) ++ (le32 RECORDER_HEADER_END_MARK ++ post)).
  { rewrite Eh. rewrite <- !app_assoc. reflexivity. }
  rewrite hdr_len_arith by auto.
  rewrite E3 at 1. rewrite (crc_range_mid _ _ _ _ _ 0) by (auto; rewrite app_length, le32_length; lia).
  cbn [bind]. rewrite N.eqb_refl. cbn [negb].
  (* version *)
  set (R := flat_map dataset_header cfg) in *.
  assert (E4 : hdr ++ post = (le32 RECORDER_HEADER_START_MARK ++ le32 (N.of_nat (length pre + 8))) ++
     le32 RECORDER_VERSION_BITS ++ (le32 (N.of_nat (length cfg)) ++ R ++ le32 (REVERT_CRC32 c) ++ le32 RECORDER_HEADER_END_MARK ++ post)).
  { rewrite E2. unfold header_body. rewrite u32_id by auto. rewrite <- !app_assoc. reflexivity. }
  rewrite E4 at 1. rewrite rd32_mid by (rewrite ?app_length, ?le32_length; auto; apply version_lt). cbn [bind].
  rewrite app_assoc in E4.
  rewrite E4 at 1. rewrite rd32_mid by (rewrite ?app_length, ?le32_length; auto). cbn [bind].
  rewrite app_assoc in E4. rewrite E4 at 1. rewrite Nat2N.id.
  unfold R. rewrite load_sets_ok by (auto; rewrite !app_length, !le32_length; reflexivity).
  cbn [bind fst snd]. fold R.
  rewrite app_assoc in E4. rewrite app_assoc in E4.
  rewrite E4.
  rewrite rd32_mid; [|rewrite !app_length, !le32_length; lia|reflexivity]. cbn [bind].
  rewrite N.eqb_refl. cbn [negb]. rewrite Lh.
  assert (LR : length pre = (16 + length R)%nat).
  { rewrite Lb. unfold header_body. rewrite !app_length, !le32_length. fold R. lia. }
  f_equal. f_equal.
  rewrite !app_length, !le32_length. rewrite u32_id; [lia|]. change (2^32) with 4294967296. lia.
Qed.
