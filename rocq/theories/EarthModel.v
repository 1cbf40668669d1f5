(** Src/Earth.h:36-44, Src/Earth.cpp: the earth model. Latitudes, longitudes and heights are finite reals;
    casts to RgioeFloatType (double in the default configuration, Inc/RgioeConfig.h:33) are identities. *)
From Coq Require Import Reals.
From Verif Require Import RealMath.
Open Scope R_scope.

(** Src/Earth.h:37 omega_e = 7.2921151467e-5 *)
Definition omega_e : R := 72921151467 / 10 ^ 15.
(** Src/Earth.h:38 e2 = 0.00669437999013 *)
Definition e2 : R := 669437999013 / 10 ^ 14.
(** Src/Earth.h:39 g0 = 9.7803267715 *)
Definition g0 : R := 97803267715 / 10 ^ 10.
(** Src/Earth.h:43 a = 6378137.0 *)
Definition semi_major : R := 6378137.
(** Src/Earth.h:45 omega_ie_e *)
Definition omega_ie_e : vec := V 0 0 omega_e.

(** Src/Earth.cpp:22-25 RM; pow(x, 1.5) of a positive x is x * sqrt x *)
Definition RM (lat : R) : R :=
  let s := sin lat in
  let x := 1 - e2 * s * s in
  semi_major * (1 - e2) / (x * sqrt x).
(** Src/Earth.cpp:27-30 RN *)
Definition RN (lat : R) : R :=
  let s := sin lat in semi_major / sqrt (1 - e2 * s * s).

(** Src/Earth.cpp:10-16 omega_en_n *)
Definition omega_en_n (vn pos : vec) : vec :=
  let h := vz pos in let lat := vx pos in
  let rm := RM lat in let rn := RN lat in
  V (vy vn / (rn + h)) (- vx vn / (rm + h)) (- vy vn * tan lat / (rn + h)).
(** Src/Earth.cpp:18-20 omega_ie_n *)
Definition omega_ie_n (lat : R) : vec := V (omega_e * cos lat) 0 (- omega_e * sin lat).

(** Src/Earth.cpp:32-34 and 36-38 dN with and without height *)
Definition dN_h (lat1 lat2 h : R) : R := (lat1 - lat2) * (RM lat1 + h).
(** Src/Earth.cpp:36-38 dN without height *)
Definition dN (lat1 lat2 : R) : R := (lat1 - lat2) * RM lat1.
(** Src/Earth.cpp:40-42 and 44-46 dE with and without height *)
Definition dE_h (lon1 lon2 lat h : R) : R := (RN lat + h) * cos lat * (lon1 - lon2).
(** Src/Earth.cpp:44-46 dE without height *)
Definition dE (lon1 lon2 lat : R) : R := RN lat * cos lat * (lon1 - lon2).
(** Src/Earth.cpp:48-52 distance of two points on the ellipsoid; dE gets (lat1, lon1, lon2) as in the code *)
Definition distance4 (lat1 lon1 lat2 lon2 : R) : vec :=
  let dn := dN lat1 lat2 in
  let de := dE lat1 lon1 lon2 in
  V dn de 0.
(** Src/Earth.cpp:54-59 distance of two points with heights *)
Definition distance6 (lat1 lon1 lat2 lon2 h1 h2 : R) : vec :=
  let dn := dN_h lat1 lat2 (h1 / 2 + h2 / 2) in
  let de := dE_h lon1 lon2 (lat1 / 2 + lat2 / 2) (h1 / 2 + h2 / 2) in
  let dd := h1 - h2 in
  V dn de dd.

(** Src/Earth.cpp:65-71 Update: the new value of the member g *)
Definition gravity (lat h : R) : R :=
  let s := sin lat in let s2 := s * s in
  g0 * (1 + 52790414 / 10 ^ 10 * s2 + 232718 / 10 ^ 10 * s2 * s2)
  + h * (43977311 / 10 ^ 16 * s2 - 30876910891 / 10 ^ 16)
  + 7211 / 10 ^ 16 * h * h.
