(** IEEE-754 formats and rounding, as reals (Flocq's generic formats), for the properties that
    depend on machine arithmetic.
    [b32 x]: x is a finite C++ [float] value; [b64 x]: a finite C++ [double] value, as far as
    precision and the subnormal range go (the upper bound 2^128, 2^1024 is stated separately where it
    matters); [rn x]: the double that an exact result [x] is rounded to (to nearest, ties to even). *)
From Coq Require Import Reals ZArith.
From Flocq Require Import Core.
Open Scope R_scope.

Definition b32 (x : R) : Prop := generic_format radix2 (FLT_exp (-149) 24) x.
Definition b64 (x : R) : Prop := generic_format radix2 (FLT_exp (-1074) 53) x.
Definition rn (x : R) : R := round radix2 (FLT_exp (-1074) 53) ZnearestE x.
(** rounding to single precision: a [double] assigned to a [float] *)
Definition rn32 (x : R) : R := round radix2 (FLT_exp (-149) 24) ZnearestE x.
(** [x] is a whole multiple of 2^e *)
Definition multiple_of (e : Z) (x : R) : Prop := exists n : Z, x = IZR n * bpow radix2 e.
