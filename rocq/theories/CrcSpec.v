(** Independent specification of CRC-32/MPEG-2 as a remainder of polynomial
    division over GF(2).  A polynomial is the [N] whose binary digits are its
    coefficients; addition is [N.lxor], multiplication by x^k is [N.shiftl]. *)
From Coq Require Import NArith List.
Import ListNotations.
Open Scope N_scope.

(** All entries are bytes. *)
Definition bytes (l : list N) : Prop := Forall (fun b => b < 256) l.

(** Carry-less product of polynomials. *)
Fixpoint clmul_pos (p : positive) (g : N) : N :=
  match p with
  | xH => g
  | xO p' => N.shiftl (clmul_pos p' g) 1
  | xI p' => N.lxor (N.shiftl (clmul_pos p' g) 1) g
  end.
Definition clmul (q g : N) : N := match q with 0 => 0 | Npos p => clmul_pos p g end.

(** Message polynomial: first byte is the most significant. *)
Definition msg_poly (data : list N) : N :=
  fold_left (fun acc b => N.lxor (N.shiftl acc 8) b) data 0.

(** x^32 + 0x04C11DB7 *)
Definition G : N := 0x104C11DB7.

(** [c] is the CRC of [data]: the remainder modulo G of
    M(x) * x^32 + 0xFFFFFFFF * x^(8 n). *)
Definition is_crc32 (data : list N) (c : N) : Prop :=
  c < 2^32 /\
  exists q, N.lxor (N.shiftl (msg_poly data) 32)
                   (N.shiftl 0xFFFFFFFF (8 * N.of_nat (length data)))
            = N.lxor (clmul q G) c.

(** Big-endian split of a 32-bit word. *)
Definition be32 (x : N) : list N :=
  [ x / 2^24 ; (x / 2^16) mod 256 ; (x / 2^8) mod 256 ; x mod 256 ].

(** Bits of a byte string, most significant bit of the first byte first. *)
Definition bits_of_byte (b : N) : list bool :=
  [N.testbit b 7; N.testbit b 6; N.testbit b 5; N.testbit b 4;
   N.testbit b 3; N.testbit b 2; N.testbit b 1; N.testbit b 0].
Definition bits (data : list N) : list bool := flat_map bits_of_byte data.

(** [d'] differs from [d] only inside a window of at most 32 consecutive bits,
    and does differ. *)
Definition burst32 (d d' : list N) : Prop :=
  length d = length d' /\ d <> d' /\
  exists pre w w' post,
    bits d = pre ++ w ++ post /\ bits d' = pre ++ w' ++ post /\
    length w = length w' /\ (length w <= 32)%nat.
