(** The zero angular rate update. *)
From Coq Require Import Reals ZArith List Lia Lra.
From mathcomp Require Import all_ssreflect ssralg matrix.
From Verif Require Import RealMath EarthModel ConvertModel SmoothModel InsModel InsProofs InsSpec InsRest InsRest2 FusionBase Rfield KalmanModel KalmanSpec KalmanProofs FusionModel FusionSpec FusionProofs FusionFeed FusionCov FusionRest FusionFix.
Import GRing.Theory.
Local Open Scope ring_scope.

(** the same state with another velocity *)
Definition with_velocity (s : fusion) (v : vec) : fusion :=
  set_ins s (ins_nav (f_ins s) (nav_vel (s_nav (f_ins s)) v (n_dvn (s_nav (f_ins s))) (n_vf (s_nav (f_ins s))))).

Lemma zupta_ignores_velocity s v v' : o_zupta (f_opt s) = true ->
  Datatypes.option_map f_kf (zero_velocity (with_velocity s v)) = Datatypes.option_map f_kf (zero_velocity (with_velocity s v')).
Proof.
move=> h. rewrite /zero_velocity /= h.
set H := blocks _. set Rn := diagonal _.
have := update_z (f_kf s) H (column (fun=> v)) (column (fun=> v')) Rn.
case: (kf_update _ _ (column (fun=> v)) _) => [a|]; case: (kf_update _ _ (column (fun=> v')) _) => [b|] //= hab.
case: (is_zero _) => //. rewrite (update_P a b _ _ _ hab). by case: (kf_update _ _ _ _).
Qed.

Lemma zupta_row_entry (j : 'I_15) : zupta_row ord0 j = if j == st 11 then 1 else 0.
Proof. by rewrite mxE. Qed.
Lemma zupta_sel (A : 'M[R]_15) i : (A *m zupta_row^T) i ord0 = A i (st 11).
Proof.
rewrite mxE (bigD1 (st 11)) //= big1 ?addr0 => [|l hl]; first by rewrite mxE zupta_row_entry eqxx mulr1.
by rewrite mxE zupta_row_entry (negbTE hl) mulr0.
Qed.
Lemma scalar1 (A : 'M[R]_1) : A = (A ord0 ord0)%:M.
Proof. apply/matrixP => i j. by rewrite !ord1 mxE eqxx mulr1n. Qed.

Lemma zupta_bias s t : o_zupta (f_opt s) = true -> zero_velocity s = Some t ->
  exists p, kX (f_kf t) (st 11) ord0 =
    Rmult (weight p (Rmult (o_zupta_std (f_opt s)) (o_zupta_std (f_opt s)))) (Rdiv (vz (s_gyro_pre (f_ins s))) (s_dt (f_ins s))) /\
    exists k, kf_update (m := 3) (f_kf s) (blocks (fun _ c => zupt_h c)) (column (fun _ => n_vn (s_nav (f_ins s))))
      (let std := Rmult (o_zupt_std (f_opt s)) (o_zupt_std (f_opt s)) in diagonal (fun _ => V std std std)) = Some k /\
      p = kP k (st 11) (st 11).
Proof.
move=> h. rewrite /zero_velocity h => /(bindP _ _ _)[k hk]. case: (is_zero _) => // /(bindP _ _ _)[k2 hk2 [<-]] /=.
exists (kP k (st 11) (st 11)). split; last by exists k.
have [hu [-> _]] := update_some _ _ _ _ _ _ _ hk2.
set r := Rmult _ _ in hu *. set z := Rdiv _ _ in hu *.
have S : zupta_row *m kP k *m zupta_row^T + one_by_one r = (Rplus (kP k (st 11) (st 11)) r)%:M.
  rewrite [LHS]scalar1. congr (_%:M). rewrite mxE -mulmxA mxE (bigD1 (st 11)) //= big1 ?addr0 => [|l hl].
    by rewrite zupta_row_entry eqxx mul1r zupta_sel mxE eqxx mulr1n.
  by rewrite zupta_row_entry (negbTE hl) mul0r.
rewrite S in hu *. set a := Rplus _ _ in hu *.
have a0 : a <> IZR 0.
  move=> E. move: hu. rewrite E unitmxE det_scalar expr1. by rewrite unitfE eqxx.
rewrite invmx_scalar mul_mx_scalar /one_by_one mul_mx_scalar !mxE.
have -> : \sum_j kP k (st 11) j * zupta_row^T j ord0 = kP k (st 11) (st 11) by have := zupta_sel (kP k) (st 11); rewrite mxE.
have -> : a^-1 = Rinv a by rewrite /GRing.inv /= /Rinvx; case: eqP.
rewrite /weight -/a. rewrite /Rdiv. change (Rmult z (Rmult (Rinv a) (kP k (st 11) (st 11))) = Rmult (Rmult (kP k (st 11) (st 11)) (Rinv a)) z).
by rewrite Rmult_comm (Rmult_comm (Rinv a)).
Qed.
