(** Builds with optional states: C149 to C151. [selection] says which of them are switched on. Histories are lists of calls (samples,
    fixes, speeds, barometric heights) in any order; [None]: undefined. Over the reals. *)
From Coq Require Import Reals ZArith List Lia.
From mathcomp Require Import all_ssreflect ssralg matrix.
From Verif Require Import RealMath EarthModel ConvertModel SmoothModel InsModel FusionBase Rfield KalmanModel FusionModel FusionSpec FusionProofs
  FusionFeed FusionCases LayoutModel SelectModel WideModel WideNarrow WideRun.
From Verif Require PropSelect.
Import GRing.Theory.
Local Open Scope ring_scope.

(** the library from the constructor on *)
Definition wide_session (c : selection) (i : ins) (o0 : option_t) (nav : navepoch) (o : option_t) (x : extra) (cs : list call) : option (wide c) :=
  bind (wide_initialize c (wide_new c i o0) nav o x) (fun w => wide_run c w cs).
(** as shipped *)
Definition session (i : ins) (o0 : option_t) (nav : navepoch) (o : option_t) (cs : list call) : option fusion :=
  bind (initialize (fusion_new i o0) nav o) (fun s => run_calls s cs).

(** ** C149: with all of them off the general program is the one as shipped, for every history *)
Theorem C149_none : forall i o0 nav o x cs, option_map narrow (wide_session none i o0 nav o x cs) = session i o0 nav o cs.
Proof.
move=> i o0 nav o x cs; rewrite /session; have -> : fusion_new i o0 = narrow (wide_new none i o0) by [].
rewrite -(initialize_none _ nav o x) /wide_session; case: (wide_initialize _ _ _ _ _) => [w|] //=; exact: run_none.
Qed.
Print Assumptions C149_none.
(** a fix 100 m above and a sample *)
Example C149_case : forall x t, exists w, wide_session none case_ins (case_opt 1 false) (case_nav (V 1 1 1)) (case_opt 1 false) x
  [:: CallGnss (case_fix 100); CallImu (case_sample 50 t)] = Some w /\ n_pos (s_nav (w_ins w)) = V 0 0 50.
Proof.
move=> x t; have := C149_none case_ins (case_opt 1 false) (case_nav (V 1 1 1)) (case_opt 1 false) x [:: CallGnss (case_fix 100); CallImu (case_sample 50 t)].
rewrite /session case_init; have [u [E [P _]]] := case_above t; rewrite [bind (Some _) _]/= [X in _ = X]E.
by case: (wide_session _ _ _ _ _ _ _) => [w|] // [e]; exists w; split => //; rewrite -P -e.
Qed.

(** ** C150: refuted. With any of them on, no history survives in which a sample comes anywhere after an accepted fix or a speed, nor, with
    the non-holonomic constraint alone, one of two samples *)
Theorem C150_correction_REFUTED : forall c i o0 nav o x before k after,
  gyro_sf c || acce_sf c || level_arm c || odo_sf c ->
  match k with CallGnss g => fix_mode (g_mode g) = true | CallVel _ => True | _ => False end ->
  List.Exists (fun j => exists y, j = CallImu y) after ->
  wide_session c i o0 nav o x (before ++ k :: after)%list = None.
Proof.
move=> c i o0 nav o x before k after hc hk ha.
have hf : feedback_defined c = false by move: hc; case: c => [[] [] [] []].
have hs : existsb is_sample after = true by elim: ha => [j l [y ->]|j l _] //= ->; rewrite orbT.
have hk' : corrects k by case: k hk.
rewrite /wide_session; case E: (wide_initialize c _ nav o x) => [w|] //=; apply: correction_stuck => //.
by move: E; rewrite /wide_initialize; case: ifP => // _ [<-].
Qed.
Theorem C150_constraint_REFUTED : forall c i o0 nav o x y1 y2 after,
  gyro_sf c || acce_sf c || level_arm c || odo_sf c -> o_nhc o = true -> o_odo o = false ->
  wide_session c i o0 nav o x (CallImu y1 :: CallImu y2 :: after)%list = None.
Proof.
move=> c i o0 nav o x y1 y2 after hc hn ho.
have hf : feedback_defined c = false by move: hc; case: c => [[] [] [] []].
rewrite /wide_session; case E: (wide_initialize c _ nav o x) => [w|]; last by [].
move: E; rewrite /wide_initialize; case: ifP => // _ [<-]; by apply: (nhc_stuck c hf) => //=; rewrite ?hn ?ho.
Qed.
Print Assumptions C150_correction_REFUTED.
Print Assumptions C150_constraint_REFUTED.
(** the same history is defined in the build as shipped *)
Definition with_arm : selection := {| gyro_sf := false; acce_sf := false; level_arm := true; odo_sf := false |}.
Example C150_case : forall x t, let h := [:: CallGnss (case_fix 100); CallImu (case_sample 50 t)] in
  session case_ins (case_opt 1 false) (case_nav (V 1 1 1)) (case_opt 1 false) h <> None /\
  wide_session with_arm case_ins (case_opt 1 false) (case_nav (V 1 1 1)) (case_opt 1 false) x h = None.
Proof.
move=> x t h; split; first by rewrite /session case_init; have [u [E _]] := case_above t; rewrite [bind (Some _) _]/= [X in X <> _]E.
apply: (C150_correction_REFUTED with_arm _ _ _ _ _ [::]) => //; by constructor; eexists.
Qed.
Example C150_case_constraint : forall x, let h := [:: CallImu (case_sample 0 0); CallImu (case_sample 0 0)] in
  session case_ins (case_opt 0 true) (case_nav vzero) (case_opt 0 true) h <> None /\
  wide_session with_arm case_ins (case_opt 0 true) (case_nav vzero) (case_opt 0 true) x h = None.
Proof.
move=> x h; split.
  have [t e _] := case_history vzero [:: 0; 0] ltac:(by []).
  by rewrite /session case_init [bind (Some _) _]/= [X in X <> _]e.
exact: C150_constraint_REFUTED.
Qed.

(** ** C151: pure inertial navigation does not depend on the selection *)
Theorem C151_inertial : forall c i o0 nav o x cs, o_zupt o = false -> o_nhc o = false \/ o_odo o = true ->
  List.Forall (fun k => match k with CallImu _ => True | CallGnss g => fix_mode (g_mode g) = false | _ => False end) cs ->
  option_map (@w_ins c) (wide_session c i o0 nav o x cs) = option_map f_ins (session i o0 nav o cs).
Proof.
move=> c i o0 nav o x cs hz hn hq.
have hq' : forallb quiet cs = true by elim: hq => [|k r hk _ ih] //=; rewrite ih andbT; case: k hk => //= g ->.
rewrite /wide_session /session; have := initialize_alike c i o0 nav o x.
case: (wide_initialize c _ nav o x) => [w|]; case E: (initialize _ nav o) => [f|] //= h; apply: inertial_alike => //.
by move: E; rewrite /initialize; case: ifP => // _ [<-].
Qed.
Print Assumptions C151_inertial.
Example C151_case : forall c x t, exists w, wide_session c case_ins (case_opt 1 false) (case_nav vzero) (case_opt 1 false) x [:: CallImu (case_sample 0 t)] = Some w.
Proof.
move=> c x t; have := C151_inertial c case_ins (case_opt 1 false) (case_nav vzero) (case_opt 1 false) x [:: CallImu (case_sample 0 t)] erefl (or_introl erefl).
rewrite /session case_init; have [u e _] := case_first 1 vzero t; rewrite [bind (Some _) _]/= [X in _ -> _ = option_map f_ins (bind X _)]e.
move=> /(_ ltac:(by constructor)); by case: (wide_session _ _ _ _ _ _ _) => [w|] // _; exists w.
Qed.
