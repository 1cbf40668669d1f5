(** Matrices put together from blocks, applied to a state (C76-C78). *)
From Coq Require Import Reals ZArith List.
From mathcomp Require Import all_ssreflect ssralg matrix.
From Verif Require Import RealMath EarthModel ConvertModel SmoothModel InsModel FusionBase Rfield KalmanModel FusionModel JacobianSpec.
Import GRing.Theory.
Local Open Scope ring_scope.

Lemma sum15 (g : nat -> R) : \sum_(j < 15) g j = (((((((((((((((0 + g 0%N) + g 1%N) + g 2%N) + g 3%N) + g 4%N) + g 5%N) + g 6%N) + g 7%N) + g 8%N) + g 9%N) + g 10%N) + g 11%N) + g 12%N) + g 13%N) + g 14%N).
Proof. by rewrite 15!big_ord_recr big_ord0. Qed.

Lemma blocks_apply a (f : nat -> nat -> mat) (x : 'cV[R]_15) :
  (blocks f : 'M[R]_(a, 15)) *m x = column (fun r => design (f r) (err_of x)).
Proof.
apply/matrixP => i k; rewrite !mxE (ord1 k).
pose G := fun j : nat => entry (f (i %/ 3)%N (j %/ 3)%N) (i %% 3)%N (j %% 3)%N * x (inord j) ord0.
transitivity (\sum_(j < 15) G j); first by apply: eq_bigr => j _; rewrite mxE /G inord_val.
rewrite (sum15 G) /G {G}. move: (i %/ 3)%N => r.
have: (i %% 3 < 3)%N by rewrite ltn_pmod.
case: (i %% 3)%N => [|[|[|//]]] _; rewrite /design /err_of /part /= /entry /GRing.add /GRing.mul /GRing.zero /=.
all: rewrite (_ : (0 %/ 3)%N = 0%N) // (_ : (1 %/ 3)%N = 0%N) // (_ : (2 %/ 3)%N = 0%N) // (_ : (3 %/ 3)%N = 1%N) // (_ : (4 %/ 3)%N = 1%N) // (_ : (5 %/ 3)%N = 1%N) // (_ : (6 %/ 3)%N = 2%N) // (_ : (7 %/ 3)%N = 2%N) // (_ : (8 %/ 3)%N = 2%N) // (_ : (9 %/ 3)%N = 3%N) // (_ : (10 %/ 3)%N = 3%N) // (_ : (11 %/ 3)%N = 3%N) // (_ : (12 %/ 3)%N = 4%N) // (_ : (13 %/ 3)%N = 4%N) // (_ : (14 %/ 3)%N = 4%N) //.
all: rewrite (_ : (3 * 0)%N = 0%N) // (_ : (3 * 1)%N = 3%N) // (_ : (3 * 2)%N = 6%N) // (_ : (3 * 3)%N = 9%N) // (_ : (3 * 4)%N = 12%N) //; ring.
Qed.

Lemma part_column (f : nat -> vec) b : (b < 5)%N -> part (column f) b = f b.
Proof.
move=> hb. rewrite /part /column !mxE. rewrite !inordK; try by case: b hb => [|[|[|[|[|//]]]]].
case: b hb => [|[|[|[|[|//]]]]] _ /=; by case: (f _).
Qed.
Lemma err_of_column (f : nat -> vec) : err_of (column f) = Err (f 0%N) (f 1%N) (f 2%N) (f 3%N) (f 4%N).
Proof. by rewrite /err_of !part_column. Qed.

Lemma transfer_errors i o phi (x : 'cV[R]_15) : transfer i o = Some phi ->
  let nav := s_nav i in
  err_of (phi *m x) = error_step (s_dt i) (vx (n_pos nav)) (vz (n_pos nav)) (s_g i) (o_gt_corr o) (o_at_corr o)
    (n_vf nav) (s_wen i) (s_wie i) (n_Cbn nav) (err_of x).
Proof.
rewrite /transfer; case: ifP => // _ [<-] /=. rewrite blocks_apply err_of_column. move: (err_of x) => [[a1 a2 a3] [b1 b2 b3] [c1 c2 c3] [d1 d2 d3] [e1 e2 e3]].
rewrite /error_step /design /phi_block. cbn [x_pos x_vel x_att x_gb x_ab].
case: (n_Cbn _) => *; case: (n_vf _) => *; case: (s_wen _) => *; case: (s_wie _) => *.
congr Err; apply: vec_ext; cbn -[RM RN sqrt]; rewrite /Rdiv. all: ring.
Qed.
(** the prediction of the state *)
Lemma propagate_errors s x t : propagate s x = Some t ->
  let i := f_ins t in let nav := s_nav i in let o := f_opt s in
  forward (f_ins s) x = Some i /\
  err_of (kX (f_kf t)) = error_step (s_dt i) (vx (n_pos nav)) (vz (n_pos nav)) (s_g i) (o_gt_corr o) (o_at_corr o)
    (n_vf nav) (s_wen i) (s_wie i) (n_Cbn nav) (err_of (kX (f_kf s))).
Proof.
rewrite /propagate. case: (smooth_update _ _) => //= sm. case E: (forward _ _) => [i|] //=. case F: (transfer _ _) => [phi|] //= [<-] /=.
split=> //. rewrite -(transfer_errors _ _ _ _ F). by [].
Qed.
(** the prediction divides by nothing that is zero *)
Lemma propagate_denominators s x t : propagate s x = Some t ->
  let p := n_pos (s_nav (f_ins t)) in
  Rplus (RM (vx p)) (vz p) <> IZR 0 /\ Rplus (RN (vx p)) (vz p) <> IZR 0 /\ Rplus (sqrt (Rmult (RM (vx p)) (RN (vx p)))) (vz p) <> IZR 0 /\
  o_gt_corr (f_opt s) <> IZR 0 /\ o_at_corr (f_opt s) <> IZR 0.
Proof.
rewrite /propagate. case: (smooth_update _ _) => //= sm. case E: (forward _ _) => [i|] //=. rewrite /transfer /transfer_defined.
case F: (negb _) => //= E2. case: E2 => <- /=. move: F. rewrite /is_zero.
by repeat case: Req_EM_T => //.
Qed.
