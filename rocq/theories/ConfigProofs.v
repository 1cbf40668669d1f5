(** Proofs about configuration files. *)
From Coq Require Import QArith Qround List String ZArith Reals Qreals Lra.
From Verif Require Import ConfigModel ConfigSpec.
Import ListNotations.

Lemma save_not_loadable c old : load_from (save_to c) old = None.
Proof. reflexivity. Qed.

Lemma completed_loads c old : exists c', load_from (save_to c ++ missing_keys c)%list old = Some c' /\
  agree c' c /\ a_threshold c' = inject_Z (truncate (a_threshold c)) /\
  g_columns c' = g_columns old /\
  (List.length (g_index c) = 9%nat -> firstn 3 (g_index c') = firstn 3 (g_index c)) /\
  skipn 3 (g_index c') = skipn 3 (g_index old).
Proof.
  destruct c as [? ? ? ? ? ? ? gi ? [[? ?] ?] ? ? ? ? ? ? ? ? ? ? ? ? [? ?] [[? ?] ?] [[? ?] ?] ? ? ? ? ? ? ? ? ?
    ? ? ? ? ? ? ? [[? ?] ?] [[? ?] ?] ? ? ? ? ? ? ? ? [[? ?] ?] [[? ?] ?] ? ? ?].
  eexists. split; [reflexivity|]. split; [repeat split|]. split; [reflexivity|]. split; [reflexivity|].
  split; [|reflexivity]. cbn [g_index]. intro L.
  do 3 (destruct gi as [|? gi]; [discriminate L|]). reflexivity.
Qed.

Open Scope R_scope.
Lemma sqrt_3600 : sqrt 3600 = 60.
Proof. replace 3600 with (60 * 60) by lra. apply sqrt_square. lra. Qed.
Lemma pi_nz : PI <> 0.
Proof. pose proof PI_RGT_0. lra. Qed.

Lemma para_units f : let p := load_para f in
  arw p = per_sqrt_hour (deg_to_rad (f_arw f)) /\ vrw p = per_sqrt_hour (f_vrw f) /\
  (forall i, gb_std p i = per_hour (deg_to_rad (f_gb_std f i))) /\
  (forall i, gb_ini p i = per_hour (deg_to_rad (f_gb_ini f i))) /\
  (forall i, ab_std p i = f_ab_std f i / 100000) /\ (forall i, ab_ini p i = f_ab_ini f i / 100000) /\
  (forall i, gs_std p i = f_gs_std f i / 1000000) /\ (forall i, gs_ini p i = f_gs_ini f i / 1000000) /\
  (forall i, as_std p i = f_as_std f i / 1000000) /\ (forall i, as_ini p i = f_as_ini f i / 1000000) /\
  at_corr p = f_at_corr f * 3600 /\ gt_corr p = f_gt_corr f * 3600.
Proof.
  unfold load_para, per_sqrt_hour, per_hour, deg_to_rad, c_deg, c_hour, c_sqrt_h, c_mGal, c_ppm. cbn.
  rewrite sqrt_3600. repeat split; intros; field.
Qed.

Lemma para_print f : print_para (load_para f) =
  [f_arw f; f_vrw f; f_gb_std f 0%nat; f_gb_std f 1%nat; f_gb_std f 2%nat;
   f_ab_std f 0%nat; f_ab_std f 1%nat; f_ab_std f 2%nat; f_gs_std f 0%nat; f_gs_std f 1%nat; f_gs_std f 2%nat;
   f_as_std f 0%nat; f_as_std f 1%nat; f_as_std f 2%nat; f_gb_ini f 0%nat; f_gb_ini f 1%nat; f_gb_ini f 2%nat;
   f_ab_ini f 0%nat; f_ab_ini f 1%nat; f_ab_ini f 2%nat; f_at_corr f; f_gt_corr f].
Proof.
  pose proof pi_nz. unfold print_para, load_para, c_deg, c_hour, c_sqrt_h, c_mGal, c_ppm. cbn.
  repeat (f_equal; [field; auto|]). f_equal. field.
Qed.

Lemma option_angles c p : let o := get_option c p in
  op_angle_bv o = (deg_to_rad (Q2R (x3 (o_angle c))), deg_to_rad (Q2R (y3 (o_angle c))), deg_to_rad (Q2R (z3 (o_angle c)))) /\
  op_atti_project o = (deg_to_rad (Q2R (x3 (w_atti c))), deg_to_rad (Q2R (y3 (w_atti c))), deg_to_rad (Q2R (z3 (w_atti c)))).
Proof.
  cbn. unfold degs, deg_to_rad, c_deg. split; (f_equal; [f_equal|]); field.
Qed.

Lemma settings_ignored c d p :
  enable_rts c = enable_rts d -> g_enable c = g_enable d -> g_arm c = g_arm d -> g_scale c = g_scale d ->
  i_rate c = i_rate d -> o_enable c = o_enable d -> o_std c = o_std d -> o_nhc c = o_nhc d ->
  o_nhc_std c = o_nhc_std d -> o_angle c = o_angle d -> o_arm c = o_arm d -> o_scale c = o_scale d ->
  o_scale_std c = o_scale_std d -> z_zupt c = z_zupt d -> z_zupta c = z_zupta d -> z_zupt_std c = z_zupt_std d ->
  z_zupta_std c = z_zupta_std d -> a_mode c = a_mode d -> a_threshold c = a_threshold d ->
  w_project c = w_project d -> w_pos c = w_pos d -> w_atti c = w_atti d ->
  get_option c p = get_option d p.
Proof.
  unfold get_option. do 22 (let H := fresh "H" in intro H; rewrite H; clear H). reflexivity.
Qed.
