(** Model of the time statistics of the data manager (DataSeqCheck) in machine arithmetic: every
    [double] operation is rounded to nearest.  The rational model of the same code is
    MergeModel.check_update.  [data_cnt] is a [uint32_t]: statements are for fewer than 2^32
    samples, where the conversion of the counter to double is exact. *)
From Coq Require Import Reals List Bool.
From Verif Require Import FloatSpec FloatOutageModel.
Import ListNotations.
Open Scope R_scope.

(** DataManager.h:58-71 *)
Record fchecker := { fc_cnt : nat; fc_last : R; fc_delta : R; fc_avg : R; fc_max : R }.
(** DataManager.h:58-71 the initial members *)
Definition new_fchecker : fchecker :=
  {| fc_cnt := 0; fc_last := 0; fc_delta := 0; fc_avg := 0; fc_max := 0 |}.

(** DataManager.cpp:109-118, 123  DataSeqCheck::Update for a sample with time [t] *)
Definition fcheck_update (c : fchecker) (t : R) : fchecker :=
  let delta := if ltb 0 (fc_last c) then rn (t - fc_last c) else 0 in
  let cnt := S (fc_cnt c) in
  {| fc_cnt := cnt;
     fc_last := t;
     fc_delta := delta;
     fc_avg := rn (rn (rn (fc_avg c * INR (cnt - 1)) + delta) / INR cnt);
     fc_max := if ltb (fc_max c) delta then delta else fc_max c |}.
(** DataManager.cpp:109-118, 123: Update for one sample after the other *)
Definition fcheck_run (ts : list R) : fchecker := fold_left fcheck_update ts new_fchecker.

(** DataManager.cpp:119-122  gnss_delay_time *)
Definition fgnss_delay (time gpst : R) : R := rn (time - gpst).
