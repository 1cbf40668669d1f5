(** The odometer options of the C interface: C85. The interface has no call that takes a wheel speed ([api_call] lists all
    calls of Inc/rgioe.h), so the options could act only through the rest. *)
From Coq Require Import Reals ZArith List Bool.
From Verif Require Import RealMath InsModel FusionBase FusionModel AlignModel ApiModel ApiSpec FusionCases OdoSpec OdoProofs.
Import ListNotations.
Local Open Scope R_scope.

(** ** C85: refuted. Two histories that differ only in the odometer options (where a switched on odometer counts as switched
    off non-holonomic constraint) get the same answers but for the reported scale factor; they are undefined together *)
Theorem C85_no_effect_partial : forall d cs1 cs2, map call_no_odometer cs1 = map call_no_odometer cs2 ->
  match api_run d cs1, api_run d cs2 with
  | Some (_, l1), Some (_, l2) => Forall2 same_answer l1 l2
  | None, None => True
  | _, _ => False
  end.
Proof. intros d cs1 cs2. exact (run_r cs1 cs2 d d eq_refl). Qed.
Print Assumptions C85_no_effect_partial.
(** options that count as equal: odometer on with any standard deviation and scale factor, and both switched off *)
Example C85_case : forall j std scale std' scale' x,
  let o b n s k := Opt 0 1 vzero vzero vzero vzero vzero vzero 3600 3600 100 0 1 vzero 1 n 1 1 true 1 false 1 b s k vzero vzero vzero vzero vzero false vzero vzero in
  map call_no_odometer [AInit j (Some (AOpt true (o true true std scale))) None; ATime (Some x)] =
  map call_no_odometer [AInit j (Some (AOpt true (o false false std' scale'))) None; ATime (Some x)].
Proof. reflexivity. Qed.
(** the scale factor that is reported while navigating is the one of the options: it is never estimated *)
Theorem C85_scale_reported : forall d j ao n d0 cs d1 l p r, api_init d j (Some ao) n = Some (d0, RGIOE_OK) -> Forall quiet cs ->
  api_run d0 cs = Some (d1, l) -> d_status d1 = RGIOE_STATUS_NAVIGATION -> api_result d1 p = Some r -> p_kd r = o_odo_scale (ao_rest ao).
Proof. exact reported_kd. Qed.
Print Assumptions C85_scale_reported.
