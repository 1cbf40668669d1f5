(** The field structure of mathcomp on Coq's real numbers, so that mathcomp matrices can have real entries.
    The choice structure mathcomp asks for comes from the standard library (ClassicalEpsilon). *)
From Coq Require Import Reals ClassicalEpsilon FunctionalExtensionality PropExtensionality Lra.
From mathcomp Require Import all_ssreflect ssralg.
Local Open Scope R_scope.

Definition Req_bool (x y : R) : bool := if Req_EM_T x y then true else false.
Lemma Req_boolP : Equality.axiom Req_bool.
Proof. move=> x y; rewrite /Req_bool; case: Req_EM_T => H; by constructor. Qed.
Canonical R_eqMixin := EqMixin Req_boolP.
Canonical R_eqType := Eval hnf in EqType R R_eqMixin.

Definition pickR (P : pred R) (n : nat) : option R :=
  match excluded_middle_informative (exists x, P x) with
  | left H => Some (proj1_sig (constructive_indefinite_description _ H))
  | right _ => None
  end.
Fact pickR_some (P : pred R) n x : pickR P n = Some x -> P x.
Proof. rewrite /pickR; case: excluded_middle_informative => // H [<-]; exact: (proj2_sig (constructive_indefinite_description _ H)). Qed.
Fact pickR_ex (P : pred R) : (exists x, P x) -> exists n, pickR P n.
Proof. move=> H; exists 0%N; by rewrite /pickR; case: excluded_middle_informative. Qed.
Fact pickR_ext (P Q : pred R) : P =1 Q -> pickR P =1 pickR Q.
Proof. by move=> PQ n; have -> : P = Q by apply: functional_extensionality. Qed.
Definition R_choiceMixin : choiceMixin R := Choice.Mixin pickR_some pickR_ex pickR_ext.
Canonical R_choiceType := Eval hnf in ChoiceType R R_choiceMixin.

Fact RplusA : associative Rplus. Proof. move=> *; by rewrite Rplus_assoc. Qed.
Definition R_zmodMixin := ZmodMixin RplusA Rplus_comm Rplus_0_l Rplus_opp_l.
Canonical R_zmodType := Eval hnf in ZmodType R R_zmodMixin.

Fact RmultA : associative Rmult. Proof. move=> *; by rewrite Rmult_assoc. Qed.
Fact RmultDl : left_distributive Rmult Rplus. Proof. move=> *; by rewrite Rmult_plus_distr_r. Qed.
Fact RmultDr : right_distributive Rmult Rplus. Proof. move=> *; by rewrite Rmult_plus_distr_l. Qed.
Fact R1_neq_0b : (1 : R) != 0. Proof. by apply/eqP; exact: R1_neq_R0. Qed.
Definition R_ringMixin := RingMixin RmultA Rmult_1_l Rmult_1_r RmultDl RmultDr R1_neq_0b.
Canonical R_ringType := Eval hnf in RingType R R_ringMixin.
Canonical R_comRingType := Eval hnf in ComRingType R Rmult_comm.

Definition Rinvx (r : R) : R := if r != 0 then / r else r.
Definition R_unit : pred R := fun r => r != 0.
Fact RmultRinvx : {in R_unit, left_inverse 1 Rinvx Rmult}.
Proof. move=> r H; rewrite /Rinvx. have H' : r != 0 by exact: H. rewrite H'. apply: Rinv_l. exact/eqP. Qed.
Fact RinvxRmult : {in R_unit, right_inverse 1 Rinvx Rmult}.
Proof. move=> r H; rewrite /Rinvx. have H' : r != 0 by exact: H. rewrite H'. apply: Rinv_r. exact/eqP. Qed.
Fact intro_R_unit x y : y * x = 1 /\ x * y = 1 -> R_unit x.
Proof. move=> [H _]; apply/eqP => E; move: H; rewrite E Rmult_0_r => /esym; exact: R1_neq_R0. Qed.
Fact Rinvx_out : {in [predC R_unit], Rinvx =1 id}.
Proof. move=> x; rewrite inE /= /R_unit /Rinvx -topredE /= negbK => ->. by []. Qed.
Definition R_unitRingMixin := UnitRingMixin RmultRinvx RinvxRmult intro_R_unit Rinvx_out.
Canonical R_unitRingType := Eval hnf in UnitRingType R R_unitRingMixin.
Canonical R_comUnitRingType := Eval hnf in [comUnitRingType of R].
Fact R_idomainMixin x y : x * y = 0 -> (x == 0) || (y == 0).
Proof. move=> H; case: (Rmult_integral _ _ H) => ->; by rewrite eqxx ?orbT. Qed.
Canonical R_idomainType := Eval hnf in IdomainType R R_idomainMixin.
Fact R_fieldMixin : GRing.Field.mixin_of [unitRingType of R]. Proof. by []. Qed.
Canonical R_fieldType := Eval hnf in FieldType R R_fieldMixin.

Lemma Rtwo_neq0 : 1 + 1 <> 0. Proof. exact: (Rgt_not_eq _ _ Rlt_0_2). Qed.
Lemma Rtwo_half : 1 = (1 + 1) * (1 / 2). Proof. field. Qed.
Lemma Rhalves : (1 + - (1 / 2)) * (1 + - (1 / 2)) + 1 / 2 * (1 / 2) = 1 / 2. Proof. field. Qed.

Lemma real_fact1 a b : b <> 0 ->
  0 <= (- ((a + 1) / (2 * b))) * (- ((a + 1) / (2 * b))) * 0 + (1 * 1 * a + 2 * ((- ((a + 1) / (2 * b))) * 1) * b) -> False.
Proof.
move=> N H. have E : 2 * (- ((a + 1) / (2 * b)) * 1) * b = - (a + 1) by field. rewrite E in H. lra.
Qed.

Lemma real_zero2 d a b : d * (1 / 2 * (a * 0 + 0 * b)) = 0. Proof. ring. Qed.
Lemma real_fact2 d v b : d * (1 / 2 * (d * 1 * v + 0 * b)) = d * d * v / 2. Proof. field. Qed.
Lemma real_fact3 r v : r <> 0 -> v <> 0 -> 1 / r * (1 / r) * (v * v) / 2 = 0 -> False.
Proof.
move=> hr hv H. have N : v * v / (2 * (r * r)) = 0 by rewrite -H; field.
have M : v * v = v * v / (2 * (r * r)) * (2 * (r * r)) by field.
rewrite N Rmult_0_l in M. have := Rmult_integral _ _ M. tauto.
Qed.

Lemma real_fact4 a b c d : 1 / 2 * (d + a + (d + b)) = d + 1 / 2 * a + (1 / 2 * b + 1 / 2 * (1 / 2 * c)) + - (1 / 4 * c).
Proof. field. Qed.

Lemma real_fact5 a b c d : 0 <= b -> 0 <= d -> a - d / 4 * c <= a + d * (b - 1 / 4 * c).
Proof. move=> hb hd. have : 0 <= d * b by apply: Rmult_le_pos. lra. Qed.
Lemma real_fact6 x d : x * d * x = d * (x * x). Proof. ring. Qed.
Lemma real_fact7 c k : 0 < k -> 0 <= 2 * c * c / k.
Proof. move=> h. have := Rle_0_sqr c; rewrite /Rsqr => hc. apply: Rmult_le_pos; first by lra. exact/Rlt_le/Rinv_0_lt_compat. Qed.

Lemma real_fact10 d v b : d * (1 / 2 * (b * 0 + v * d)) = d * (1 / 2 * (v * d)). Proof. ring. Qed.
Lemma real_fact11 d v b : d * (1 / 2 * (b * 0 + v * 0)) = 0. Proof. ring. Qed.
Lemma real_fact12 d v : d * (1 / 2 * (1 * v + v * 1)) = d * v. Proof. field. Qed.
Lemma real_fact9 d : 1 + -1 * (d * 0) = 1. Proof. ring. Qed.
Lemma real_fact14 a b c : a = c + b -> c = a - b. Proof. move=> ->; ring. Qed.
Lemma real_fact15 d v r : 0 < r ->
  d * (1 / 2 * (v * d)) * (d * (1 / 2 * (v * d)) * / r) = d * d * (d * d) * (v * v) / (4 * r).
Proof. move=> h; field. exact: Rgt_not_eq. Qed.
