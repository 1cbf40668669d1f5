(** Texts that can be read as columns of numbers, the first of each eleven a whole number. *)
From Coq Require Import QArith List ZArith.
From Verif Require Import StreamModel GenSpec.
Import QArith ListNotations.

(** the words can be read from column c on (columns are counted on over the lines): in the week column a whole number is taken, which may
    leave something of its word to the next column; in the others the word must be a number *)
Inductive readable : nat -> list word -> Prop :=
| readable_end : forall c, readable c []
| readable_number : forall c w q ws, (c mod 11 <> 0)%nat -> denotes w q -> readable (S c) ws -> readable c (w :: ws)
| readable_whole : forall c z ws, (c mod 11 = 0)%nat -> readable (S c) ws -> readable c (Whole z :: ws)
| readable_part : forall c z q r ws, (c mod 11 = 0)%nat -> readable (S c) (r :: ws) -> readable c (Part z q r :: ws).

(** the eleven numbers of a result *)
Definition eleven_numbers (r : nav_row) : list Q := inject_Z (nr_week r) :: numbers r.
(** the first c words of a line of a result *)
Definition begins (r : nav_row) (c : nat) (pre : list word) : Prop := exists ws, eleven r ws /\ pre = firstn c ws.
(** a word that is no number for column c *)
Definition unreadable (c : nat) (w : word) : Prop := w = Junk \/ (c = 0%nat /\ exists q, w = Frac q).
