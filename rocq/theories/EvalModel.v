(** Tools/ErrorAnalyser.py, Tools/ErrorAnalyse.py, Tools/Earth.py: the comparison of a solution with a reference that the scripts
    ci-test-a15.sh and ci-test-pos830.sh run, over the reals. Modelled for the columns and options those scripts use
    (Tools/ErrorAnalyse.py:28-30: column_index 0..10, no offset, no error file) and for files with at least 11 columns; reading the
    files (pandas) is not modelled: the rows are given. *)
From Coq Require Import Reals List Arith.
Import ListNotations.
Open Scope R_scope.

(** one row of either file, Tools/ErrorAnalyser.py:102-118: columns 1 to 10; angles in degrees *)
Record row := Row { r_t : R; r_lat : R; r_lon : R; r_h : R; r_v0 : R; r_v1 : R; r_v2 : R; r_roll : R; r_pitch : R; r_yaw : R }.

(** Tools/Earth.py:17-23 *)
Definition py_r : R := 6378137.
(** Tools/Earth.py:17-23 the squared eccentricity *)
Definition py_e2 : R := 669437999013 / 10 ^ 14.
(** Tools/Earth.py:29-30 RM; the power 1.5 of a positive x is x * sqrt x *)
Definition py_RM (phi : R) : R := let x := 1 - py_e2 * sin phi * sin phi in py_r * (1 - py_e2) / (x * sqrt x).
(** Tools/Earth.py:32-33 RN *)
Definition py_RN (phi : R) : R := py_r / sqrt (1 - py_e2 * sin phi * sin phi).
(** Tools/Earth.py:35-37 dN *)
Definition py_dN (lat1 lat2 : R) : R := (lat1 - lat2) * py_RM lat1.
(** Tools/Earth.py:39-41 dE *)
Definition py_dE (lat1 lon1 lon2 : R) : R := (lon1 - lon2) * py_RN lat1 * cos lat1.

(** Tools/ErrorAnalyser.py:155-156, 215-216: while x - p > 180: x -= 360, with the number of rounds it needs (EvalProofs.lower_done) *)
Fixpoint lower (n : nat) (p x : R) : R :=
  match n with O => x | S n => if Rlt_dec 180 (x - p) then lower n p (x - 360) else x end.
(** Tools/ErrorAnalyser.py:155-156, 215-216: the whole while loop *)
Definition lower_all (p x : R) : R := lower (Z.to_nat (up ((x - p) / 360))) p x.
(** Tools/ErrorAnalyser.py:157-158, 217-218: while x - p < -180: x += 360 *)
Fixpoint raise (n : nat) (p x : R) : R :=
  match n with O => x | S n => if Rlt_dec (x - p) (- 180) then raise n p (x + 360) else x end.
(** Tools/ErrorAnalyser.py:157-158, 217-218: the whole while loop *)
Definition raise_all (p x : R) : R := raise (Z.to_nat (up ((p - x) / 360))) p x.
(** Tools/ErrorAnalyser.py:151-158: the headings of the reference without jumps, behind one of heading p *)
Fixpoint unwrap_from (p : R) (l : list R) : list R :=
  match l with [] => [] | x :: r => let x' := raise_all p (lower_all p x) in x' :: unwrap_from x' r end.
(** Tools/ErrorAnalyser.py:151-158: the whole for loop *)
Definition unwrap (l : list R) : list R := match l with [] => [] | x :: r => x :: unwrap_from x r end.
(** Tools/ErrorAnalyser.py:167-171: into 0..360, once *)
Definition once360 (x : R) : R :=
  let x := if Rlt_dec x 0 then x + 360 else x in if Rlt_dec 360 x then x - 360 else x.

(** what a linear interpolation yields: an exception, a value, or 0/0 *)
Inductive sample := Raises | NotANumber | Val (x : R).
(** scipy.interpolate.interp1d (library code, as documented and in its linear method): the interval that ends at the first knot not
    below v. Knots in ascending order. *)
Fixpoint interp_from (x0 y0 : R) (l : list (R * R)) (v : R) : sample :=
  match l with
  | [] => Raises
  | (x, y) :: r => if Rle_dec v x then (if Req_EM_T x x0 then NotANumber else Val ((y - y0) / (x - x0) * (v - x0) + y0))
                   else interp_from x y r v
  end.
(** scipy.interpolate.interp1d as above, with its bounds check *)
Definition interp1d (l : list (R * R)) (v : R) : sample :=
  match l with [] => Raises | (x, y) :: r => if Rlt_dec v x then Raises else interp_from x y r v end.

(** Tools/ErrorAnalyser.py:135-137: the rows of the solution between the first and the last time of the reference *)
Definition common (target ref : list row) : list row :=
  match ref with
  | [] => []
  | a :: _ => filter (fun r => if Rlt_dec (r_t r) (r_t (last ref a)) then (if Rlt_dec (r_t a) (r_t r) then true else false) else false) target
  end.

(** Tools/ErrorAnalyser.py:159-165: a column of the reference at the time t *)
Definition ref_column (f : row -> R) (ref : list row) (t : R) : sample := interp1d (map (fun r => (r_t r, f r)) ref) t.
(** Tools/ErrorAnalyser.py:159-165 the heading of the reference at the time t *)
Definition ref_heading (ref : list row) (t : R) : sample := interp1d (combine (map r_t ref) (unwrap (map r_yaw ref))) t.
(** numpy: a function of one number applied to an interpolated value *)
Definition smap (f : R -> R) (s : sample) : sample := match s with Val x => Val (f x) | o => o end.
(** numpy: a function of two numbers applied to interpolated values *)
Definition smap2 (f : R -> R -> R) (s t : sample) : sample :=
  match s, t with Val x, Val y => Val (f x y) | Raises, _ => Raises | _, Raises => Raises | _, _ => NotANumber end.

(** numpy.deg2rad *)
Definition rad (x : R) : R := x * PI / 180.
(** Tools/ErrorAnalyser.py:180-184: errs[2] *)
Definition err_2 (ref : list row) (r : row) : sample :=
  smap2 (fun lat lon => py_dE (rad lat) (rad (r_lon r)) (rad lon)) (ref_column r_lat ref (r_t r)) (ref_column r_lon ref (r_t r)).
(** Tools/ErrorAnalyser.py:185-189: errs[3] *)
Definition err_3 (ref : list row) (r : row) : sample := smap (fun lat => py_dN (rad (r_lat r)) (rad lat)) (ref_column r_lat ref (r_t r)).
(** Tools/ErrorAnalyser.py:191-192 and 206-209: errs[4], errs[5..9], a column as it is *)
Definition err_plain (f : row -> R) (ref : list row) (r : row) : sample := smap (fun x => f r - x) (ref_column f ref (r_t r)).
(** Tools/ErrorAnalyser.py:211-219: errs[10] *)
Definition wrap (x : R) : R := raise_all 0 (lower_all 0 x).
(** Tools/ErrorAnalyser.py:211-219: errs[10] *)
Definition err_yaw (ref : list row) (r : row) : sample := smap (fun y => wrap (once360 (r_yaw r) - once360 y)) (ref_heading ref (r_t r)).
(** Tools/ErrorAnalyser.py:194-197 *)
Definition err_2d (ref : list row) (r : row) : sample := smap2 (fun e n => sqrt (e ^ 2 + n ^ 2)) (err_2 ref r) (err_3 ref r).
(** Tools/ErrorAnalyser.py:199-203 *)
Definition err_3d (ref : list row) (r : row) : sample :=
  smap2 (fun p u => sqrt (p + u ^ 2)) (smap2 (fun e n => e ^ 2 + n ^ 2) (err_2 ref r) (err_3 ref r)) (err_plain r_h ref r).

(** ** Statistics of the errors, Tools/ErrorAnalyser.py:17-62 *)
Definition smallest (l : list R) : R := match l with [] => 0 | x :: r => fold_left Rmin r x end.
(** numpy.max of a non-empty array, Tools/ErrorAnalyser.py:17-62 *)
Definition largest (l : list R) : R := match l with [] => 0 | x :: r => fold_left Rmax r x end.
(** numpy.histogram (library code, as documented): the range of the values, widened when it is a point *)
Definition low_edge (l : list R) : R := if Req_EM_T (smallest l) (largest l) then smallest l - 1 / 2 else smallest l.
(** numpy.histogram: the upper end of the range *)
Definition high_edge (l : list R) : R := if Req_EM_T (smallest l) (largest l) then largest l + 1 / 2 else largest l.
(** numpy.histogram: the i-th of the bins + 1 equally spaced edges *)
Definition edge (l : list R) (bins i : nat) : R := low_edge l + INR i * ((high_edge l - low_edge l) / INR bins).
(** bin i: from edge i to below edge i+1; the last one includes its upper edge *)
Definition in_bin (l : list R) (bins i : nat) (x : R) : bool :=
  if Rle_dec (edge l bins i) x then
    (if Rlt_dec x (edge l bins (S i)) then true
     else if Nat.eqb (S i) bins then (if Rle_dec x (edge l bins (S i)) then true else false) else false)
  else false.
(** numpy.histogram: the count of each bin, Tools/ErrorAnalyser.py:46 *)
Definition histogram (l : list R) (bins : nat) : list nat := map (fun i => length (filter (in_bin l bins i) l)) (seq 0 bins).
(** numpy.cumsum *)
Fixpoint cumsum (s : nat) (l : list nat) : list nat := match l with [] => [] | x :: r => (s + x)%nat :: cumsum (s + x) r end.
(** Tools/ErrorAnalyser.py:46-47 and 56: pdf, cdf and the knots (cdf, edges[1:]) *)
Definition knots (l : list R) (bins : nat) : list (R * R) :=
  combine (map INR (cumsum 0 (histogram l bins))) (map (fun i => edge l bins (S i)) (seq 0 bins)).
(** Tools/ErrorAnalyser.py:46-47: the last cumulated count *)
Definition total (l : list R) (bins : nat) : R := INR (last (cumsum 0 (histogram l bins)) 0%nat).
(** Tools/ErrorAnalyser.py:52-62 __set_sigma: first_sigma and second_sigma; an exception in either makes both 0 *)
Definition sigmas (l : list R) (bins : nat) : sample * sample :=
  match interp1d (knots l bins) (6826 / 10000 * total l bins), interp1d (knots l bins) (9544 / 10000 * total l bins) with
  | Raises, _ | _, Raises => (Val 0, Val 0)
  | a, b => (a, b)
  end.
(** Tools/ErrorAnalyser.py:17-18 _rms *)
Definition rms (l : list R) : R := sqrt (fold_right Rplus 0 (map (fun x => x ^ 2) l) / INR (length l)).

(** ** The verdict *)
(** all the values, when none is missing *)
Fixpoint values (l : list sample) : option (list R) :=
  match l with
  | [] => Some []
  | Val x :: r => match values r with Some v => Some (x :: v) | None => None end
  | _ :: _ => None
  end.
(** Tools/ErrorAnalyser.py:122-123 bins *)
Definition bins_of (target : list row) : nat := Nat.max (length target / 500) 100.
(** a comparison with 0/0 is false *)
Definition exceeds (s : sample) (lim : R) : bool := match s with Val x => if Rlt_dec lim x then true else false | _ => false end.
(** Tools/ErrorAnalyse.py:74-81: exit code from the two error lists *)
Definition verdict (e2d e3d : list R) (bins : nat) (lim2 lim3 : R) : nat :=
  if exceeds (snd (sigmas (map Rabs e3d) bins)) lim3 then 1%nat
  else if exceeds (snd (sigmas (map Rabs e2d) bins)) lim2 then 1%nat else 0%nat.
(** Tools/ErrorAnalyse.py:22-81: exit code of the script. Without common times, or with an exception, the analysis stops and printing
    the table fails on its missing values: exit code 1. *)
Definition check (target ref : list row) (lim2 lim3 : R) : nat :=
  match common target ref with
  | [] => 1%nat
  | rows =>
    match values (map (err_2d ref) rows), values (map (err_3d ref) rows) with
    | Some e2d, Some e3d => verdict e2d e3d (bins_of target) lim2 lim3
    | _, _ => 1%nat
    end
  end.
