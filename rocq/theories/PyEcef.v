(** Tools/Earth.py, Tools/InsCore.py ecef_to_lla: convergence and accuracy (C157, C158). *)
From Coq Require Import Reals List Arith Lra Lia Psatz.
From Verif Require Import RealMath EarthModel ConvertModel ConvertSpec ConvertProofs EarthProofs MathWrap SmoothModel
  InsModel InsSpec InsProofs InsRest PyInsModel PyInsProofs.
Import ListNotations.
Open Scope R_scope.

Section Point.
  Variables p z r : R.
  Hypothesis Hp : 0 < p.
  Hypothesis Hr : r = sqrt (p * p + z * z).
  Hypothesis Hr0 : 6200000 <= r.
  Let q := 1 - y_e2.
  Let a := yr.
  Let e := y_e2.
  Definition sd (D : R) : R := sqrt (D * D + z * z).
  Definition wd (D : R) : R := sqrt (D * D + (1 - y_e2) * (z * z)).
  Definition hd_ (D : R) : R := p * sd D / D - yr * sd D / wd D.
  Definition fd (D : R) : R := p - y_e2 * yr * D / wd D.
  Definition good (D : R) : Prop := 99 / 100 * p <= D <= p.

  Lemma q_val : 993 / 1000 < 1 - y_e2 < 994 / 1000.
  Proof. unfold y_e2. lra. Qed.
  Lemma rr : r * r = p * p + z * z.
  Proof. rewrite Hr. apply sqrt_sqrt. nra. Qed.
  Lemma sd_sq D : sd D * sd D = D * D + z * z.
  Proof. apply sqrt_sqrt. nra. Qed.
  Lemma wd_sq D : wd D * wd D = D * D + (1 - y_e2) * (z * z).
  Proof. apply sqrt_sqrt. assert (Q := q_val). nra. Qed.
  Lemma sd_bounds D : good D -> 99 / 100 * r <= sd D <= r.
  Proof.
    intros [L U]. assert (R := rr). assert (S := sd_sq D). assert (SP : 0 <= sd D) by apply sqrt_pos.
    split.
    - apply Rsqr_incr_0_var; [|exact SP]. unfold Rsqr. rewrite S. nra.
    - apply Rsqr_incr_0_var; [|lra]. unfold Rsqr. rewrite S. nra.
  Qed.
  Lemma wd_bounds D : good D -> 98 / 100 * r <= wd D <= r.
  Proof.
    intros [L U]. assert (R := rr). assert (S := wd_sq D). assert (SP : 0 <= wd D) by apply sqrt_pos. assert (Q := q_val).
    split.
    - apply Rsqr_incr_0_var; [|exact SP]. unfold Rsqr. rewrite S. nra.
    - apply Rsqr_incr_0_var; [|lra]. unfold Rsqr. rewrite S. nra.
  Qed.
  Lemma ea : 42697 < y_e2 * yr < 42698.
  Proof. unfold y_e2, yr. lra. Qed.
  (** the factor by which the error shrinks *)
  Definition ell : R := 46000 / r.
  Lemma ell_b : 0 < ell <= 742 / 100000.
  Proof.
    unfold ell. split; [apply Rdiv_lt_0_compat; lra|]. apply Rmult_le_reg_r with r; [lra|]. unfold Rdiv. rewrite Rmult_assoc, Rinv_l by lra. lra.
  Qed.
  Lemma fd_good D : good D -> good (fd D).
  Proof.
    intros G. assert (W := wd_bounds D G). assert (E := ea). destruct G as [L U]. unfold good, fd.
    assert (A : 0 <= y_e2 * yr * D / wd D <= 1 / 100 * p); [|lra].
    assert (WP : 0 < wd D) by lra. split.
    - apply Rmult_le_pos; [nra|apply Rlt_le, Rinv_0_lt_compat; lra].
    - apply Rmult_le_reg_r with (wd D); [lra|]. unfold Rdiv at 1. rewrite Rmult_assoc, Rinv_l by lra. nra.
  Qed.

  Lemma div_le x y b : 0 < y -> x <= b * y -> x / y <= b.
  Proof. intros P H. apply Rmult_le_reg_r with y; [exact P|]. unfold Rdiv. rewrite Rmult_assoc, Rinv_l by lra. lra. Qed.
  Lemma le_div x y b : 0 < y -> b * y <= x -> b <= x / y.
  Proof. intros P H. apply Rmult_le_reg_r with y; [exact P|]. unfold Rdiv. rewrite Rmult_assoc, Rinv_l by lra. lra. Qed.

  (** the map contracts *)
  Lemma fd_lip D1 D2 : good D1 -> good D2 -> Rabs (fd D1 - fd D2) <= ell * (z * z) / (r * r) * Rabs (D1 - D2).
  Proof.
    intros G1 G2. assert (W1 := wd_bounds D1 G1). assert (W2 := wd_bounds D2 G2). assert (S1 := wd_sq D1). assert (S2 := wd_sq D2).
    assert (E := ea). assert (Q := q_val). destruct G1 as [L1 U1], G2 as [L2 U2].
    set (w1 := wd D1) in *. set (w2 := wd D2) in *.
    set (m := D1 * w2 + D2 * w1). assert (MP : 0 < m) by (unfold m; assert (0 < D1 * w2) by nra; assert (0 < D2 * w1) by nra; lra).
    assert (X : fd D1 - fd D2 = - (D1 - D2) * ((y_e2 * yr) * ((D1 + D2) * ((1 - y_e2) * (z * z))) / (m * (w1 * w2)))).
    { unfold fd. fold w1 w2.
      transitivity (- (y_e2 * yr) * ((D1 * w2 - D2 * w1) / (w1 * w2))); [field; split; lra|].
      assert (Y : (D1 * w2 - D2 * w1) * m = (D1 - D2) * (D1 + D2) * ((1 - y_e2) * (z * z))).
      { unfold m. transitivity (D1 * D1 * (w2 * w2) - D2 * D2 * (w1 * w1)); [ring|]. rewrite S1, S2. ring. }
      transitivity (- (y_e2 * yr) * (((D1 * w2 - D2 * w1) * m) / (m * (w1 * w2)))).
      - field. repeat split; lra.
      - rewrite Y. field. repeat split; lra. }
    rewrite X, Rabs_mult, Rabs_Ropp, Rmult_comm. apply Rmult_le_compat_r; [apply Rabs_pos|].
    assert (ZZ : 0 <= z * z) by nra.
    assert (M1 : 98 / 100 * r * (D1 + D2) <= m) by (unfold m; nra).
    assert (WW : (98 / 100 * r) * (98 / 100 * r) <= w1 * w2) by (apply Rmult_le_compat; lra).
    assert (DP : 0 < D1 + D2) by lra.
    assert (MW : (98 / 100 * r * (D1 + D2)) * ((98 / 100 * r) * (98 / 100 * r)) <= m * (w1 * w2)).
    { apply Rmult_le_compat; try lra; [apply Rmult_le_pos; lra|apply Rmult_le_pos; lra]. }
    assert (MWP : 0 < m * (w1 * w2)) by (apply Rmult_lt_0_compat; [exact MP|apply Rmult_lt_0_compat; lra]).
    rewrite Rabs_pos_eq.
    2:{ apply Rmult_le_pos; [|apply Rlt_le, Rinv_0_lt_compat, MWP]. apply Rmult_le_pos; [lra|]. apply Rmult_le_pos; [lra|]. nra. }
    apply div_le; [exact MWP|]. unfold ell.
    apply Rle_trans with (46000 / r * (z * z) / (r * r) * ((98 / 100 * r * (D1 + D2)) * ((98 / 100 * r) * (98 / 100 * r)))).
    2:{ apply Rmult_le_compat_l; [|exact MW]. apply Rmult_le_pos; [apply Rmult_le_pos; [apply Rlt_le, Rdiv_lt_0_compat; lra|exact ZZ]|].
        apply Rlt_le, Rinv_0_lt_compat. nra. }
    replace (46000 / r * (z * z) / (r * r) * ((98 / 100 * r * (D1 + D2)) * ((98 / 100 * r) * (98 / 100 * r))))
      with (46000 * (98 / 100) ^ 3 * ((D1 + D2) * (z * z))) by (field; lra).
    replace (y_e2 * yr * ((D1 + D2) * ((1 - y_e2) * (z * z)))) with (y_e2 * yr * (1 - y_e2) * ((D1 + D2) * (z * z))) by ring.
    apply Rmult_le_compat_r; [apply Rmult_le_pos; lra|]. nra.
  Qed.

  (** the height as a function of the distance, from both sides *)
  Lemma hd_lip D1 D2 : good D1 -> good D2 ->
    99 / 100 * (z * z / (r * p)) * Rabs (D1 - D2) <= Rabs (hd_ D1 - hd_ D2) <= 1031 / 1000 * (z * z / (r * p)) * Rabs (D1 - D2).
  Proof.
    intros G1 G2. assert (W1 := wd_bounds D1 G1). assert (W2 := wd_bounds D2 G2). assert (S1 := wd_sq D1). assert (S2 := wd_sq D2).
    assert (B1 := sd_bounds D1 G1). assert (B2 := sd_bounds D2 G2). assert (T1 := sd_sq D1). assert (T2 := sd_sq D2).
    assert (E := ea). assert (Q := q_val). destruct G1 as [L1 U1], G2 as [L2 U2].
    set (w1 := wd D1) in *. set (w2 := wd D2) in *. set (s1 := sd D1) in *. set (s2 := sd D2) in *.
    set (m := s1 * D2 + s2 * D1). set (n := s1 * w2 + s2 * w1).
    assert (MP : 99 / 100 * r * (D1 + D2) <= m <= r * (D1 + D2)) by (unfold m; split; nra).
    assert (NP : 2 * (97 / 100) * (r * r) <= n) by (unfold n; nra).
    assert (DP : 0 < D1 + D2) by lra. assert (ZZ : 0 <= z * z) by nra.
    assert (M0 : 0 < m) by nra. assert (N0 : 0 < n) by nra.
    assert (A : s1 / D1 - s2 / D2 = (D2 - D1) * (z * z) * ((D1 + D2) / (m * (D1 * D2)))).
    { transitivity (((s1 * D2 - s2 * D1) * m) / (m * (D1 * D2))); [field; repeat split; lra|].
      replace ((s1 * D2 - s2 * D1) * m) with (z * z * (D2 * D2 - D1 * D1)).
      2:{ unfold m. transitivity (s1 * s1 * (D2 * D2) - s2 * s2 * (D1 * D1)); [rewrite T1, T2; ring|ring]. }
      field. repeat split; lra. }
    assert (B : s1 / w1 - s2 / w2 = (D2 - D1) * (z * z) * (y_e2 * (D1 + D2) / (n * (w1 * w2)))).
    { transitivity (((s1 * w2 - s2 * w1) * n) / (n * (w1 * w2))); [field; repeat split; lra|].
      replace ((s1 * w2 - s2 * w1) * n) with (y_e2 * (z * z) * (D2 * D2 - D1 * D1)).
      2:{ unfold n. transitivity (s1 * s1 * (w2 * w2) - s2 * s2 * (w1 * w1)); [rewrite T1, T2, S1, S2; ring|ring]. }
      field. repeat split; lra. }
    set (u := p * (D1 + D2) / (m * (D1 * D2))). set (v := y_e2 * yr * (D1 + D2) / (n * (w1 * w2))).
    assert (X : hd_ D1 - hd_ D2 = - (D1 - D2) * ((z * z) * (u - v))).
    { unfold hd_. fold s1 s2 w1 w2. transitivity (p * (s1 / D1 - s2 / D2) - yr * (s1 / w1 - s2 / w2)); [field; repeat split; lra|].
      rewrite A, B. unfold u, v. field. repeat split; lra. }
    assert (DD : 0 < D1 * D2) by nra.
    assert (RP : 0 < r * p) by nra.
    assert (U1' : 1 / (r * p) <= u).
    { unfold u. apply le_div; [nra|]. apply Rle_trans with (1 / (r * p) * ((r * (D1 + D2)) * (p * p))).
      - apply Rmult_le_compat_l; [apply Rlt_le, Rdiv_lt_0_compat; lra|]. apply Rmult_le_compat; try lra; nra.
      - right. field. split; lra. }
    assert (U2' : u <= 10307 / 10000 / (r * p)).
    { unfold u. apply div_le; [nra|].
      apply Rle_trans with (10307 / 10000 / (r * p) * ((99 / 100 * r * (D1 + D2)) * ((99 / 100 * p) * (99 / 100 * p)))).
      - replace (10307 / 10000 / (r * p) * ((99 / 100 * r * (D1 + D2)) * ((99 / 100 * p) * (99 / 100 * p))))
          with (10307 / 10000 * (99 / 100) ^ 3 * (p * (D1 + D2))) by (field; split; lra).
        rewrite <- (Rmult_1_l (p * (D1 + D2))) at 1. apply Rmult_le_compat_r; [apply Rmult_le_pos; lra|lra].
      - apply Rmult_le_compat_l; [apply Rlt_le, Rdiv_lt_0_compat; lra|]. apply Rmult_le_compat; try nra. }
    assert (WW : (98 / 100 * r) * (98 / 100 * r) <= w1 * w2) by (apply Rmult_le_compat; lra).
    assert (pr : p <= r) by (assert (R := rr); nra).
    assert (V0 : 0 <= v).
    { unfold v. apply Rmult_le_pos; [apply Rmult_le_pos; lra|]. apply Rlt_le, Rinv_0_lt_compat. apply Rmult_lt_0_compat; [lra|nra]. }
    assert (V1 : v <= 1 / 100 / (r * p)).
    { unfold v. apply div_le; [apply Rmult_lt_0_compat; [lra|nra]|].
      apply Rle_trans with (1 / 100 / (r * p) * ((2 * (97 / 100) * (r * r)) * ((98 / 100 * r) * (98 / 100 * r)))).
      - replace (1 / 100 / (r * p) * ((2 * (97 / 100) * (r * r)) * ((98 / 100 * r) * (98 / 100 * r))))
          with (1 / 100 * (2 * (97 / 100) * (98 / 100) ^ 2) * (r * r * r) / p) by (field; split; lra).
        apply le_div; [exact Hp|].
        assert (p * p <= r * r) by nra.
        assert ((D1 + D2) * p <= 2 * (r * r)) by nra.
        replace (y_e2 * yr * (D1 + D2) * p) with (y_e2 * yr * ((D1 + D2) * p)) by ring.
        apply Rle_trans with (42698 * (2 * (r * r))); [apply Rmult_le_compat; try lra; nra|].
        replace (1 / 100 * (2 * (97 / 100) * (98 / 100) ^ 2) * (r * r * r)) with (1 / 100 * (2 * (97 / 100) * (98 / 100) ^ 2) * r * (r * r)) by ring.
        assert (0 <= r * r) by nra. nra.
      - apply Rmult_le_compat_l; [apply Rlt_le, Rdiv_lt_0_compat; lra|]. apply Rmult_le_compat; try lra; nra. }
    assert (I : 0 < / (r * p)) by (apply Rinv_0_lt_compat; exact RP).
    unfold Rdiv in U1', U2', V1. 
    assert (UV : 99 / 100 * / (r * p) <= u - v <= 1031 / 1000 * / (r * p)) by lra.
    rewrite X, Rabs_mult, Rabs_Ropp.
    rewrite (Rabs_pos_eq (z * z * (u - v))) by (apply Rmult_le_pos; [exact ZZ|lra]).
    change (z * z / (r * p)) with (z * z * / (r * p)). assert (AP := Rabs_pos (D1 - D2)). split.
    - replace (99 / 100 * (z * z * / (r * p)) * Rabs (D1 - D2)) with (Rabs (D1 - D2) * (z * z * (99 / 100 * / (r * p)))) by ring.
      apply Rmult_le_compat_l; [exact AP|]. apply Rmult_le_compat_l; lra.
    - replace (1031 / 1000 * (z * z * / (r * p)) * Rabs (D1 - D2)) with (Rabs (D1 - D2) * (z * z * (1031 / 1000 * / (r * p)))) by ring.
      apply Rmult_le_compat_l; [exact AP|]. apply Rmult_le_compat_l; lra.
  Qed.

  Lemma good_pos D : good D -> 0 < D. Proof. intros [L _]. lra. Qed.
  Lemma place_angle D : 0 < D -> cos (atan (z / D)) = D / sd D /\ sin (atan (z / D)) = z / sd D.
  Proof.
    intros P. assert (S := sd_sq D). assert (SP : 0 < sd D) by (apply sqrt_lt_R0; nra).
    assert (X : sqrt (1 + (z / D)²) = sd D / D).
    { unfold Rsqr. replace (1 + z / D * (z / D)) with ((sd D / D) * (sd D / D)).
      - apply sqrt_square. apply Rlt_le, Rdiv_lt_0_compat; lra.
      - replace (sd D / D * (sd D / D)) with (sd D * sd D / (D * D)) by (field; lra). rewrite S. field. lra. }
    rewrite cos_atan, sin_atan, X. split; field; lra.
  Qed.
  Lemma place_RN D : good D -> y_RN (atan (z / D)) = yr * sd D / wd D.
  Proof.
    intros G. assert (P := good_pos D G). unfold y_RN. rewrite (proj2 (place_angle D P)).
    assert (B := sd_bounds D G). assert (W := wd_bounds D G). assert (S := sd_sq D). assert (T := wd_sq D).
    replace (1 - y_e2 * (z / sd D) * (z / sd D)) with ((wd D / sd D) * (wd D / sd D)).
    - rewrite sqrt_square by (apply Rlt_le, Rdiv_lt_0_compat; lra). field. split; lra.
    - replace (wd D / sd D * (wd D / sd D)) with ((wd D * wd D) / (sd D * sd D)) by (field; lra).
      replace (1 - y_e2 * (z / sd D) * (z / sd D)) with ((sd D * sd D - y_e2 * (z * z)) / (sd D * sd D)) by (field; lra).
      rewrite T. rewrite S at 2. f_equal. ring.
  Qed.
  Lemma turn_good D : good D -> y_ecef_turn p z (atan (z / D)) = Some (hd_ D, atan (z / fd D)).
  Proof.
    intros G. assert (P := good_pos D G). assert (B := sd_bounds D G). assert (W := wd_bounds D G).
    assert (FP := good_pos _ (fd_good D G)).
    unfold y_ecef_turn. cbv zeta. rewrite (place_RN D G), (proj1 (place_angle D P)).
    assert (0 < D / sd D) by (apply Rdiv_lt_0_compat; lra).
    destruct (Req_EM_T (D / sd D) 0); [lra|].
    replace (p / (D / sd D) - yr * sd D / wd D) with (hd_ D) by (unfold hd_; field; repeat split; lra).
    assert (X : yr * sd D / wd D + hd_ D = p * sd D / D) by (unfold hd_; ring).
    rewrite X. assert (0 < p * sd D / D) by (apply Rdiv_lt_0_compat; [apply Rmult_lt_0_compat; lra|lra]).
    destruct (Req_EM_T (p * sd D / D) 0); [lra|].
    replace (p * (1 - y_e2 * (yr * sd D / wd D) / (p * sd D / D))) with (fd D) by (unfold fd; field; repeat split; lra).
    unfold atan2. destruct (Rlt_dec 0 (fd D)); [reflexivity|lra].
  Qed.

  Lemma ell_pow n : 0 <= ell ^ n. Proof. apply pow_le. assert (E := ell_b). lra. Qed.
  Lemma zz_rr : 0 <= z * z / (r * r) <= 1.
  Proof.
    assert (R := rr). split; [apply Rmult_le_pos; [nra|apply Rlt_le, Rinv_0_lt_compat; nra]|]. apply div_le; nra.
  Qed.
  (** the loop: the result comes from two neighbouring distances that are close together *)
  Definition settled (lat h : R) : Prop := exists D, good D /\ h = hd_ D /\ lat = atan (z / fd D) /\
    z * z / (r * p) * Rabs (fd D - D) <= 1 / 100 * (1 / 10 ^ 8) /\ Rabs (fd D - D) * r <= 1 / 100 * p * (1 / 10 ^ 8).
  Lemma close_settles Dp : good Dp -> Rabs (hd_ (fd Dp) - hd_ Dp) < 1 / 10 ^ 8 -> settled (atan (z / fd (fd Dp))) (hd_ (fd Dp)).
  Proof.
    intros G C. assert (G1 := fd_good Dp G). assert (E := ell_b). assert (R := rr). assert (zr := zz_rr).
    assert (F := fd_lip (fd Dp) Dp G1 G). assert (LO := proj1 (hd_lip (fd Dp) Dp G1 G)).
    exists (fd Dp). split; [exact G1|]. split; [reflexivity|]. split; [reflexivity|].
    set (dp := Rabs (fd Dp - Dp)) in *. set (d := Rabs (fd (fd Dp) - fd Dp)) in *.
    assert (A0 : 0 <= dp) by apply Rabs_pos.
    assert (K : 0 <= z * z / (r * p)) by (apply Rmult_le_pos; [nra|apply Rlt_le, Rinv_0_lt_compat; nra]).
    assert (B : z * z / (r * p) * dp <= 11 / 10 * (1 / 10 ^ 8)) by lra.
    assert (B0 : 0 <= z * z / (r * p) * dp) by (apply Rmult_le_pos; assumption).
    split.
    - apply Rle_trans with (z * z / (r * p) * (ell * (z * z) / (r * r) * dp)); [apply Rmult_le_compat_l; assumption|].
      replace (z * z / (r * p) * (ell * (z * z) / (r * r) * dp)) with ((z * z / (r * p) * dp) * (z * z / (r * r)) * ell) by (field; lra).
      apply Rle_trans with (11 / 10 * (1 / 10 ^ 8) * 1 * (742 / 100000)); [|lra].
      apply Rmult_le_compat; try lra; [apply Rmult_le_pos; lra|]. apply Rmult_le_compat; lra.
    - apply Rle_trans with ((ell * (z * z) / (r * r) * dp) * r); [apply Rmult_le_compat_r; lra|].
      replace (ell * (z * z) / (r * r) * dp * r) with (p * (z * z / (r * p) * dp) * ell) by (field; lra).
      apply Rle_trans with (p * (11 / 10 * (1 / 10 ^ 8)) * (742 / 100000)); [|lra].
      apply Rmult_le_compat; try lra; [apply Rmult_le_pos; lra|]. apply Rmult_le_compat_l; lra.
  Qed.
  Lemma loop_settles n : forall Dp, (n <= 9)%nat -> good Dp -> Rabs (fd Dp - Dp) <= 1 / 100 * p * ell ^ (9 - n) ->
    exists h lat, y_ecef_loop n p z (hd_ Dp) (atan (z / fd Dp)) = Some (h, lat, true) /\ settled lat h.
  Proof.
    assert (E := ell_b). assert (R := rr). assert (zr := zz_rr).
    assert (pr : p <= r) by nra.
    induction n as [|n IH]; intros Dp Hn G H.
    - assert (G1 := fd_good Dp G). cbn [y_ecef_loop]. rewrite (turn_good _ G1).
      assert (L := proj2 (hd_lip (fd Dp) Dp G1 G)). assert (F := fd_lip (fd Dp) Dp G1 G).
      assert (LO := proj1 (hd_lip (fd Dp) Dp G1 G)).
      assert (small : Rabs (hd_ (fd Dp) - hd_ Dp) < 1 / 10 ^ 8).
      { eapply Rle_lt_trans; [exact L|]. change (9 - 0)%nat with 9%nat in H.
        assert (A : z * z / (r * p) * Rabs (fd Dp - Dp) <= 1 / 100 * r * ell ^ 9).
        { apply Rle_trans with (z * z / (r * p) * (1 / 100 * p * ell ^ 9)).
          - apply Rmult_le_compat_l; [|exact H]. apply Rmult_le_pos; [nra|apply Rlt_le, Rinv_0_lt_compat; nra].
          - replace (z * z / (r * p) * (1 / 100 * p * ell ^ 9)) with (z * z / (r * r) * (1 / 100 * r * ell ^ 9)) by (field; lra).
            rewrite <- (Rmult_1_l (1 / 100 * r * ell ^ 9)) at 2. apply Rmult_le_compat_r; [|lra].
            apply Rmult_le_pos; [lra|apply ell_pow]. }
        assert (rl : r * ell = 46000) by (unfold ell; field; lra).
        replace (1 / 100 * r * ell ^ 9) with (1 / 100 * (r * ell) * ell ^ 8) in A by ring. rewrite rl in A.
        assert (ell ^ 8 <= (742 / 100000) ^ 8) by (apply pow_incr; lra). 
        assert (1 / 100 * 46000 * ell ^ 8 * 1031 / 1000 < 1 / 10 ^ 8) by (simpl in *; lra). lra. }
      destruct (Rlt_dec (Rabs (hd_ (fd Dp) - hd_ Dp)) (1 / 10 ^ 8)); [|lra].
      exists (hd_ (fd Dp)), (atan (z / fd (fd Dp))). split; [reflexivity|]. apply close_settles; assumption.
    - assert (G1 := fd_good Dp G). cbn [y_ecef_loop]. rewrite (turn_good _ G1).
      destruct (Rlt_dec (Rabs (hd_ (fd Dp) - hd_ Dp)) (1 / 10 ^ 8)) as [C|C].
      + exists (hd_ (fd Dp)), (atan (z / fd (fd Dp))). split; [reflexivity|]. apply close_settles; assumption.
      + apply (IH (fd Dp)); [lia|exact G1|]. assert (F := fd_lip (fd Dp) Dp G1 G).
        replace (9 - n)%nat with (S (9 - S n)) by lia. cbn [pow].
        apply Rle_trans with (1 := F). set (dp := Rabs (fd Dp - Dp)) in *. assert (A0 : 0 <= dp) by apply Rabs_pos.
        replace (ell * (z * z) / (r * r) * dp) with (ell * (z * z / (r * r) * dp)) by (field; lra).
        replace (1 / 100 * p * (ell * ell ^ (9 - S n))) with (ell * (1 / 100 * p * ell ^ (9 - S n))) by ring.
        apply Rmult_le_compat_l; [lra|]. apply Rle_trans with (2 := H). rewrite <- (Rmult_1_l dp) at 2.
        apply Rmult_le_compat_r; lra.
  Qed.
  (** from the first latitude on *)
  Definition first_d : R := p * (1 - y_e2).
  Lemma first_good : good first_d. Proof. unfold good, first_d. assert (Q := q_val). nra. Qed.
  Lemma first_gap : fd first_d - first_d = y_e2 * first_d * (hd_ first_d / sd first_d).
  Proof.
    assert (G := first_good). assert (P := good_pos _ G). assert (B := sd_bounds _ G). assert (W := wd_bounds _ G).
    assert (Q := q_val). unfold hd_, fd, first_d in *. field. repeat split; lra.
  Qed.
  Lemma all_settles : exists h lat, y_ecef_loop 10 p z 0 (atan (z / first_d)) = Some (h, lat, true) /\ settled lat h.
  Proof.
    assert (G := first_good). assert (G1 := fd_good _ G). assert (E := ell_b). assert (zr := zz_rr). assert (R := rr).
    assert (P := good_pos _ G). assert (B := sd_bounds _ G). assert (Q := q_val).
    change (y_ecef_loop 10 p z 0 (atan (z / first_d))) with
      (match y_ecef_turn p z (atan (z / first_d)) with
       | None => None
       | Some (h, lat') => if Rlt_dec (Rabs (h - 0)) (1 / 10 ^ 8) then Some (h, lat', true) else y_ecef_loop 9 p z h lat' end).
    rewrite (turn_good _ G). destruct (Rlt_dec (Rabs (hd_ first_d - 0)) (1 / 10 ^ 8)) as [C|C].
    - exists (hd_ first_d), (atan (z / fd first_d)). split; [reflexivity|]. rewrite Rminus_0_r in C.
      exists first_d. split; [exact G|]. split; [reflexivity|]. split; [reflexivity|].
      rewrite first_gap. unfold Rdiv at 2 5. rewrite !Rabs_mult, (Rabs_pos_eq y_e2) by (unfold y_e2; lra). rewrite (Rabs_pos_eq first_d) by lra.
      rewrite (Rabs_pos_eq (/ sd first_d)) by (apply Rlt_le, Rinv_0_lt_compat; lra).
      set (h := Rabs (hd_ first_d)) in *. assert (H0 : 0 <= h) by apply Rabs_pos. set (s := sd first_d) in *.
      assert (D1 : first_d <= p) by (apply G).
      assert (E2 : 0 < y_e2 < 67 / 10000) by (unfold y_e2; lra).
      assert (X : y_e2 * first_d * (h * / s) * r <= 7 / 1000 * p * (1 / 10 ^ 8)).
      { replace (y_e2 * first_d * (h * / s) * r) with (y_e2 * first_d * h * (r / s)) by (field; lra).
        assert (T : 0 < r / s <= 102 / 100) by (split; [apply Rdiv_lt_0_compat; lra|apply div_le; lra]).
        assert (Y : y_e2 * first_d * h <= 67 / 10000 * p * (1 / 10 ^ 8)).
        { apply Rmult_le_compat; try lra; [apply Rmult_le_pos; lra|]. apply Rmult_le_compat; lra. }
        assert (0 <= y_e2 * first_d * h) by (apply Rmult_le_pos; [apply Rmult_le_pos; lra|exact H0]).
        apply Rle_trans with (67 / 10000 * p * (1 / 10 ^ 8) * (102 / 100)); [apply Rmult_le_compat; lra|].
        replace (67 / 10000 * p * (1 / 10 ^ 8) * (102 / 100)) with (67 / 10000 * (102 / 100) * (p * (1 / 10 ^ 8))) by ring.
        replace (7 / 1000 * p * (1 / 10 ^ 8)) with (7 / 1000 * (p * (1 / 10 ^ 8))) by ring. apply Rmult_le_compat_r; [|lra].
        apply Rmult_le_pos; lra. }
      split.
      + replace (z * z / (r * p) * (y_e2 * first_d * (h * / s))) with (z * z / (r * r) * ((y_e2 * first_d * (h * / s) * r) / p)).
        2:{ field. repeat split; lra. }
        assert (X2 : y_e2 * first_d * (h * / s) * r / p <= 7 / 1000 * (1 / 10 ^ 8)) by (apply div_le; lra).
        assert (0 <= y_e2 * first_d * (h * / s) * r / p).
        { apply Rmult_le_pos; [|apply Rlt_le, Rinv_0_lt_compat; lra]. apply Rmult_le_pos; [|lra].
          apply Rmult_le_pos; [apply Rmult_le_pos; lra|]. apply Rmult_le_pos; [exact H0|apply Rlt_le, Rinv_0_lt_compat; lra]. }
        apply Rle_trans with (1 * (7 / 1000 * (1 / 10 ^ 8))); [apply Rmult_le_compat; lra|lra].
      + lra.
    - apply loop_settles; [lia|exact G|]. cbn [Nat.sub pow]. rewrite Rmult_1_r. destruct G as [g1 g2], G1 as [g3 g4].
      apply Rabs_le. lra.
  Qed.

  (** how far the result is off *)
  Lemma settled_close lat h lon x y : settled lat h -> x = p * cos lon -> y = p * sin lon ->
    vnorm (vsub (y_lla_to_ecef (V lat lon h)) (V x y z)) <= 1 / 10 ^ 9 /\ - (PI / 2) < lat < PI / 2.
  Proof.
    intros (D & G & -> & -> & B1 & B2) -> ->. assert (G1 := fd_good D G). assert (P1 := good_pos _ G1).
    split; [|assert (AB := atan_bound (z / fd D)); lra].
    assert (R := rr). assert (zr := zz_rr). assert (E := ell_b).
    assert (S := sd_bounds _ G1). assert (W := wd_bounds _ G1). assert (SS := sd_sq (fd D)). assert (L := proj2 (hd_lip _ _ G1 G)).
    assert (F := fd_lip _ _ G1 G). destruct (place_angle (fd D) P1) as [C1 C2]. assert (RNv := place_RN _ G1).
    set (D' := fd D) in *. set (s' := sd D') in *. set (dh := hd_ D - hd_ D'). set (df := fd D' - D').
    assert (Adh : Rabs dh <= 104 / 100 * (1 / 10 ^ 10)).
    { unfold dh. rewrite Rabs_minus_sym. apply Rle_trans with (1 := L). lra. }
    assert (Az : Rabs (z / D' * df) <= 1 / 100 * (1 / 10 ^ 10)).
    { rewrite Rabs_mult. unfold df. unfold D' at 2.
      assert (zl : Rabs z <= r) by (apply Rabs_le; nra).
      assert (T1 : Rabs (z / D') <= 102 / 100 * (r / p)).
      { unfold Rdiv at 1. rewrite Rabs_mult, (Rabs_pos_eq (/ D')) by (apply Rlt_le, Rinv_0_lt_compat; lra).
        apply div_le; [lra|]. apply Rle_trans with (1 := zl). destruct G1 as [g1 g2].
        apply Rle_trans with (102 / 100 * (r / p) * (99 / 100 * p)).
        - replace (102 / 100 * (r / p) * (99 / 100 * p)) with (102 / 100 * (99 / 100) * r) by (field; lra). lra.
        - apply Rmult_le_compat_l; [apply Rmult_le_pos; [lra|apply Rlt_le, Rdiv_lt_0_compat; lra]|exact g1]. }
      set (d := Rabs (D' - D)) in *. assert (A0 : 0 <= d) by apply Rabs_pos.
      assert (T2 : Rabs (fd D' - fd D) <= 742 / 100000 * d).
      { apply Rle_trans with (1 := F). apply Rmult_le_compat_r; [exact A0|].
        replace (ell * (z * z) / (r * r)) with (ell * (z * z / (r * r))) by (field; lra).
        apply Rle_trans with (742 / 100000 * 1); [apply Rmult_le_compat; lra|lra]. }
      apply Rle_trans with (102 / 100 * (r / p) * (742 / 100000 * d)).
      { apply Rmult_le_compat; try exact T1; try exact T2; apply Rabs_pos. }
      replace (102 / 100 * (r / p) * (742 / 100000 * d)) with (102 / 100 * (742 / 100000) * (d * r / p)) by (field; lra).
      assert (X : d * r / p <= 1 / 100 * (1 / 10 ^ 8)) by (apply div_le; lra).
      apply Rle_trans with (102 / 100 * (742 / 100000) * (1 / 100 * (1 / 10 ^ 8))); [apply Rmult_le_compat_l; lra|lra]. }
    assert (c1 : 0 < D' / s' <= 1).
    { split; [apply Rdiv_lt_0_compat; lra|]. apply div_le; [lra|]. rewrite Rmult_1_l. apply Rsqr_incr_0_var; [unfold Rsqr; nra|lra]. }
    assert (c2 : Rabs (z / s') <= 1).
    { unfold Rdiv. rewrite Rabs_mult, (Rabs_pos_eq (/ s')) by (apply Rlt_le, Rinv_0_lt_compat; lra). apply div_le; [lra|].
      rewrite Rmult_1_l. apply Rsqr_incr_0_var; [|lra]. unfold Rsqr. rewrite <- Rabs_mult, Rabs_pos_eq by nra. nra. }
    unfold y_lla_to_ecef. cbv zeta. cbn [vx vy vz]. rewrite RNv, C1, C2. fold s'.
    set (w' := wd D') in *.
    assert (EP : (yr * s' / w' + hd_ D) * (D' / s') = p + D' / s' * dh).
    { unfold dh, hd_ at 3. fold s' w'. field. repeat split; lra. }
    assert (EZ : (yr * s' / w' * (1 - y_e2) + hd_ D) * (z / s') = z + (z / s' * dh + z / D' * df)).
    { unfold dh, hd_ at 3, df, fd at 1. fold s' w'. field. repeat split; lra. }
    rewrite EP, EZ.
    set (ap := D' / s' * dh). set (az := z / s' * dh + z / D' * df).
    assert (Aap : Rabs ap <= 104 / 100 * (1 / 10 ^ 10)).
    { unfold ap. rewrite Rabs_mult, (Rabs_pos_eq (D' / s')) by lra. apply Rle_trans with (1 * Rabs dh); [|lra].
      apply Rmult_le_compat_r; [apply Rabs_pos|lra]. }
    assert (Aaz : Rabs az <= 105 / 100 * (1 / 10 ^ 10)).
    { unfold az. apply Rle_trans with (1 := Rabs_triang _ _). rewrite (Rabs_mult (z / s')).
      assert (Rabs (z / s') * Rabs dh <= 1 * Rabs dh) by (apply Rmult_le_compat_r; [apply Rabs_pos|exact c2]). lra. }
    assert (V : dot (vsub (V ((p + ap) * cos lon) ((p + ap) * sin lon) (z + az)) (V (p * cos lon) (p * sin lon) z))
                    (vsub (V ((p + ap) * cos lon) ((p + ap) * sin lon) (z + az)) (V (p * cos lon) (p * sin lon) z)) = ap * ap + az * az).
    { unfold dot; cbn. assert (T := sin2_cos2 lon). unfold Rsqr in T.
      transitivity (ap * ap * (sin lon * sin lon + cos lon * cos lon) + az * az); [ring|rewrite T; ring]. }
    unfold vnorm. rewrite V. rewrite <- (sqrt_square (1 / 10 ^ 9)) by lra. apply sqrt_le_1_alt.
    assert (Rabs ap * Rabs ap <= (104 / 100 * (1 / 10 ^ 10)) * (104 / 100 * (1 / 10 ^ 10))) by (apply Rmult_le_compat; try apply Rabs_pos; exact Aap).
    assert (Rabs az * Rabs az <= (105 / 100 * (1 / 10 ^ 10)) * (105 / 100 * (1 / 10 ^ 10))) by (apply Rmult_le_compat; try apply Rabs_pos; exact Aaz).
    rewrite <- Rabs_mult, (Rabs_pos_eq (ap * ap)) in H by nra. rewrite <- Rabs_mult, (Rabs_pos_eq (az * az)) in H0 by nra. lra.
  Qed.
End Point.

Lemma polar x y : 0 < x * x + y * y -> let p := sqrt (x * x + y * y) in x = p * cos (atan2 y x) /\ y = p * sin (atan2 y x).
Proof.
  intros H p. assert (P : 0 < p) by (apply sqrt_lt_R0; exact H). assert (PP : p * p = x * x + y * y) by (apply sqrt_sqrt; lra).
  assert (U : y / p * (y / p) + x / p * (x / p) = 1).
  { transitivity ((x * x + y * y) / (p * p)); [field; lra|]. rewrite PP. field. lra. }
  destruct (atan2_unit _ _ U) as [A B].
  assert (E : atan2 (y / p) (x / p) = atan2 y x).
  { rewrite <- (atan2_scale p (y / p) (x / p) P). f_equal; field; lra. }
  rewrite E in A, B. rewrite A, B. split; field; lra.
Qed.
Lemma half_lon p l : 0 < p -> - PI < l < PI -> 2 * atan2 (p * sin l) (p * cos l + p) = l.
Proof.
  intros P L. assert (C : 0 < cos (l / 2)) by (apply cos_gt_0; lra).
  assert (T := sin2_cos2 (l / 2)). unfold Rsqr in T.
  replace (p * sin l) with (2 * p * cos (l / 2) * sin (l / 2)).
  2:{ rewrite (half_sin l). ring. }
  replace (p * cos l + p) with (2 * p * cos (l / 2) * cos (l / 2)).
  2:{ rewrite (half_cos l). replace (sin (l / 2) * sin (l / 2)) with (1 - cos (l / 2) * cos (l / 2)) by lra. ring. }
  rewrite atan2_polar; [field| |lra]. apply Rmult_lt_0_compat; lra.
Qed.
Lemma ecef_back xyz : 6200000 <= vnorm xyz -> 0 < vx xyz * vx xyz + vy xyz * vy xyz ->
  exists lat h, y_ecef_to_lla xyz = Some (V lat (2 * atan2 (vy xyz) (vx xyz + sqrt (vx xyz * vx xyz + vy xyz * vy xyz))) h, true) /\
    forall lon, vx xyz = sqrt (vx xyz * vx xyz + vy xyz * vy xyz) * cos lon -> vy xyz = sqrt (vx xyz * vx xyz + vy xyz * vy xyz) * sin lon ->
      vnorm (vsub (y_lla_to_ecef (V lat lon h)) xyz) <= 1 / 10 ^ 9 /\ - (PI / 2) < lat < PI / 2.
Proof.
  intros H HP. destruct xyz as [x y z]. cbn [vx vy vz] in *. set (p := sqrt (x * x + y * y)).
  assert (P : 0 < p) by (apply sqrt_lt_R0; exact HP). assert (PP : p * p = x * x + y * y) by (apply sqrt_sqrt; lra).
  unfold y_ecef_to_lla. cbv zeta. cbn [vx vy vz]. replace (x ^ 2 + y ^ 2) with (x * x + y * y) by ring. fold p.
  assert (Q := q_val). destruct (Req_EM_T (p * (1 - y_e2)) 0) as [e|_]; [nra|].
  set (r := vnorm (V x y z)) in *.
  assert (Hr : r = sqrt (p * p + z * z)) by (unfold r, vnorm, dot; cbn [vx vy vz]; rewrite PP; reflexivity).
  destruct (all_settles p z r P Hr H) as (h & lat & L & S). unfold first_d in L. rewrite L.
  exists lat, h. split; [reflexivity|]. intros lon X Y. apply (settled_close p z r P Hr H lat h lon x y S X Y).
Qed.
Lemma ecef_returns xyz : 6200000 <= vnorm xyz -> 0 < vx xyz * vx xyz + vy xyz * vy xyz -> ~ (vy xyz = 0 /\ vx xyz < 0) ->
  exists lla, y_ecef_to_lla xyz = Some (lla, true) /\ vnorm (vsub (y_lla_to_ecef lla) xyz) <= 1 / 10 ^ 9 /\
    - (PI / 2) < vx lla < PI / 2 /\ vy lla = atan2 (vy xyz) (vx xyz).
Proof.
  intros H HP HA. destruct (ecef_back xyz H HP) as (lat & h & E & C). destruct (polar (vx xyz) (vy xyz) HP) as [X Y].
  set (l := atan2 (vy xyz) (vx xyz)) in *. set (p := sqrt (vx xyz * vx xyz + vy xyz * vy xyz)) in *.
  assert (P : 0 < p) by (apply sqrt_lt_R0; exact HP). assert (B := atan2_range (vy xyz) (vx xyz)). fold l in B.
  assert (L : l <> PI).
  { intros e. rewrite e, cos_PI in X. rewrite e, sin_PI in Y. apply HA. split; [lra|nra]. }
  assert (LL : 2 * atan2 (vy xyz) (vx xyz + p) = l) by (rewrite X, Y; apply half_lon; lra).
  rewrite LL in E. destruct (C l X Y) as [C1 C2]. eexists. split; [exact E|]. split; [exact C1|]. split; [exact C2|]. reflexivity.
Qed.

Lemma ecef_size lat lon h : -100000 <= h ->
  6200000 <= vnorm (y_lla_to_ecef (V lat lon h)) /\ 0 < y_RN lat + h.
Proof.
  intros H. change (y_lla_to_ecef (V lat lon h)) with (V ((RN lat + h) * cos lat * cos lon) ((RN lat + h) * cos lat * sin lon)
     ((RN lat * (1 - y_e2) + h) * sin lat)). change (y_RN lat) with (RN lat).
  assert (B := radii lat). assert (N : 6378137 <= RN lat) by (unfold semi_major in *; lra).
  assert (Q := q_val). assert (E : y_e2 = 669437999013 / 10 ^ 14) by reflexivity.
  set (n := RN lat) in *. assert (M : 6200000 <= n * (1 - y_e2) + h) by nra. split; [|lra].
  unfold vnorm. rewrite <- (sqrt_square 6200000) by lra. apply sqrt_le_1_alt. unfold dot; cbn [vx vy vz].
  assert (T := sin2_cos2 lat). assert (T2 := sin2_cos2 lon). unfold Rsqr in T, T2.
  set (c := cos lat) in *. set (s := sin lat) in *.
  replace ((n + h) * c * cos lon * ((n + h) * c * cos lon) + (n + h) * c * sin lon * ((n + h) * c * sin lon))
    with ((n + h) * (n + h) * (c * c) * (sin lon * sin lon + cos lon * cos lon)) by ring.
  rewrite T2, Rmult_1_r.
  assert (A1 : (6200000 * 6200000) * (c * c) <= (n + h) * (n + h) * (c * c)) by (apply Rmult_le_compat_r; nra).
  assert (A2 : (6200000 * 6200000) * (s * s) <= (n * (1 - y_e2) + h) * (n * (1 - y_e2) + h) * (s * s)) by (apply Rmult_le_compat_r; nra).
  replace (6200000 * 6200000) with ((6200000 * 6200000) * (c * c) + (6200000 * 6200000) * (s * s)) by (rewrite <- Rmult_plus_distr_l; lra).
  replace ((n * (1 - y_e2) + h) * s * ((n * (1 - y_e2) + h) * s)) with ((n * (1 - y_e2) + h) * (n * (1 - y_e2) + h) * (s * s)) by ring.
  lra.
Qed.
Lemma ecef_roundtrip lat lon h : - (PI / 2) < lat < PI / 2 -> - PI < lon < PI -> -100000 <= h ->
  exists lla, y_ecef_to_lla (y_lla_to_ecef (V lat lon h)) = Some (lla, true) /\
    vnorm (vsub (y_lla_to_ecef lla) (y_lla_to_ecef (V lat lon h))) <= 1 / 10 ^ 9 /\ vy lla = lon.
Proof.
  intros Hlat Hlon Hh. destruct (ecef_size lat lon h Hh) as [S N]. assert (C := cos_range_pos lat Hlat).
  set (xyz := y_lla_to_ecef (V lat lon h)) in *. set (p := (y_RN lat + h) * cos lat).
  assert (P : 0 < p) by (apply Rmult_lt_0_compat; assumption).
  assert (X : vx xyz = p * cos lon) by reflexivity. assert (Y : vy xyz = p * sin lon) by reflexivity.
  assert (T := sin2_cos2 lon). unfold Rsqr in T.
  assert (PP : vx xyz * vx xyz + vy xyz * vy xyz = p * p).
  { rewrite X, Y. transitivity (p * p * (sin lon * sin lon + cos lon * cos lon)); [ring|rewrite T; ring]. }
  destruct (ecef_returns xyz S) as (lla & E & C1 & C2 & C3).
  - rewrite PP. nra.
  - rewrite X, Y. intros [A B].
    assert (sin lon = 0) by (apply Rmult_integral in A as [A|A]; [lra|exact A]).
    assert (atan2 (sin lon) (cos lon) = lon) by (apply atan2_sincos; lra).
    assert (cos lon < 0) by nra. rewrite H in *. unfold atan2 in H0. destruct (Rlt_dec 0 (cos lon)); [lra|].
    destruct (Rlt_dec (cos lon) 0); [|lra]. destruct (Rle_dec 0 0); [|lra]. unfold Rdiv in H0. rewrite Rmult_0_l, atan_0 in H0. lra.
  - exists lla. split; [exact E|]. split; [exact C1|]. rewrite C3, X, Y. apply atan2_polar; lra.
Qed.
(** west and east of the antimeridian *)
Lemma ecef_antimeridian x z : x < 0 -> 6200000 <= vnorm (V x 0 z) ->
  exists lla, y_ecef_to_lla (V x 0 z) = Some (lla, true) /\ vy lla = 0 /\ - x - 1 / 10 ^ 9 <= vx (y_lla_to_ecef lla).
Proof.
  intros Hx H. destruct (ecef_back (V x 0 z) H) as (lat & h & E & C); cbn [vx vy vz] in *; [nra|].
  assert (S : sqrt (x * x + 0 * 0) = - x).
  { replace (x * x + 0 * 0) with (- x * - x) by ring. apply sqrt_square. lra. }
  rewrite S in E, C. replace (x + - x) with 0 in E by ring.
  assert (Z : atan2 0 0 = 0).
  { unfold atan2. destruct (Rlt_dec 0 0); [lra|]. reflexivity. }
  rewrite Z, Rmult_0_r in E. eexists. split; [exact E|]. split; [reflexivity|].
  destruct (C PI) as [C1 _]; [rewrite cos_PI; ring|rewrite sin_PI; ring|].
  unfold y_lla_to_ecef in *. cbv zeta in *. cbn [vx vy vz] in *. rewrite cos_PI, sin_PI in C1. rewrite cos_0.
  set (t := (y_RN lat + h) * cos lat) in *.
  assert (K := proj1 (component_le (vsub (V (t * -1) (t * 0) ((y_RN lat * (1 - y_e2) + h) * sin lat)) (V x 0 z)))). cbn [vx vsub] in K.
  assert (K2 := Rle_trans _ _ _ K C1). assert (K3 := Rle_abs (t * -1 - x)). lra.
Qed.
Lemma ecef_axis z : y_ecef_to_lla (V 0 0 z) = None.
Proof.
  unfold y_ecef_to_lla. cbv zeta. cbn [vx vy vz]. replace (0 ^ 2 + 0 ^ 2) with 0 by ring. rewrite sqrt_0, Rmult_0_l.
  destruct (Req_EM_T 0 0); [reflexivity|lra].
Qed.

(** * the lever arm of the reference *)
Definition lever_target (lat lon h roll pitch yaw : R) (offset : vec) : vec :=
  vadd (lla_to_xyz (V (deg lat) (deg lon) h)) (mvec (lla_to_cne (deg lat) (deg lon)) (mvec (euler_to_dcm (V (deg roll) (deg pitch) (deg yaw))) offset)).
Lemma deg_k x : x * (PI / 180) = deg x. Proof. unfold deg. field. Qed.
Lemma lever_moves lat lon h roll pitch yaw off : let t := lever_target lat lon h roll pitch yaw off in
  6200000 <= vnorm t -> 0 < vx t * vx t + vy t * vy t -> ~ (vy t = 0 /\ vx t < 0) ->
  exists nav, y_lever (V lat lon h) (V roll pitch yaw) off = Some nav /\
    vnorm (vsub (lla_to_xyz (V (deg (vx nav)) (deg (vy nav)) (vz nav))) t) <= 1 / 10 ^ 9 /\ -90 < vx nav < 90 /\ -180 < vy nav <= 180.
Proof.
  intros t H HP HA. unfold y_lever. cbv zeta. cbn [vx vy vz]. rewrite !deg_k.
  assert (T : vadd (y_lla_to_ecef (V (deg lat) (deg lon) h)) (mvec (mmul (y_lla_to_cne (deg lat) (deg lon)) (y_euler_to_dcm (deg roll) (deg pitch) (deg yaw))) off) = t).
  { unfold t, lever_target. rewrite mvec_mmul. reflexivity. }
  rewrite T. destruct (ecef_returns t H HP HA) as (r & -> & C1 & C2 & C3). eexists. split; [reflexivity|]. cbn [vx vy vz].
  assert (P := PI_RGT_0). assert (D : forall x, deg (x / (PI / 180)) = x) by (intros x; unfold deg; field; lra).
  rewrite !D. split; [destruct r; exact C1|]. assert (B := atan2_range (vy t) (vx t)). rewrite <- C3 in B.
  assert (K : 0 < PI / 180) by lra.
  assert (X : forall v, v / (PI / 180) * (PI / 180) = v) by (intros; field; lra).
  split; split; first [apply Rmult_lt_reg_r with (PI / 180)|apply Rmult_le_reg_r with (PI / 180)]; try exact K; rewrite X; lra.
Qed.
