(** Measurement updates in a row; Tools/ObtainInstallAngle.cpp. *)
From Coq Require Import Reals.
From mathcomp Require Import all_ssreflect ssralg matrix.
From Verif Require Import Rfield KalmanModel KalmanSpec InfoSpec.
Local Open Scope ring_scope.

(** Src/KalmanFilter.hpp:98-115 called once for every measurement (Src/DataFusion.cpp:208, 280, 286, 445, 457, 465, 493), with
    nothing in between: every call forms Xd from its own observation alone *)
Fixpoint update_all {n} (k : kf n) (ms : seq (measurement n)) : option (kf n) :=
  match ms with
  | [::] => Some k
  | m :: rest => match kf_update k (m_h m) (m_z m) (m_r m) with Some k' => update_all k' rest | None => None end
  end.

(** Tools/ObtainInstallAngle.cpp:51-55: theta and P with one record, whatever its H, Y and R *)
Definition feed {n} (e : 'cV[R]_n * 'M[R]_n) (m : measurement n) : option ('cV[R]_n * 'M[R]_n) :=
  match kf_update (Kf 0 e.2) (m_h m) (m_z m - m_h m *m e.1) (m_r m) with
  | Some k => Some (e.1 + kX k, kP k)
  | None => None
  end.
(** the loop of Tools/ObtainInstallAngle.cpp:42-57 over the records *)
Fixpoint feed_all {n} (e : 'cV[R]_n * 'M[R]_n) (ms : seq (measurement n)) : option ('cV[R]_n * 'M[R]_n) :=
  match ms with
  | [::] => Some e
  | m :: rest => match feed e m with Some e' => feed_all e' rest | None => None end
  end.
