(** Extraction of numbers from a text stream with operator>>, as far as Tools/DataGenerator.cpp:16-20 uses it.

    A text is a list of blank-separated words.  A word is a whole number, a number with more characters behind its leading
    integer (["1.5"]: an int takes the 1 and leaves [".5"]), a number without a leading integer ([".5"]) or no number.
    Simplifications: whole numbers fit into an int; a word is a number to its end or not at all for a floating-point
    variable; a word that is not a number fails at its first character. *)
From Coq Require Import QArith List ZArith Bool.
From Verif Require Import ReaderModel.
Import ListNotations.

(** a word of the text (see above); [Part z q w]: the whole word is q, its leading integer z, what follows that is w *)
Inductive word := Whole (z : Z) | Part (z : Z) (q : Q) (rest : word) | Frac (q : Q) | Junk.

(** std::istream (library) >> x, x of type int ([true]) or floating-point ([false]): what is stored and what is left of the
    word; [None]: failure, 0 is stored *)
Definition take (whole : bool) (w : word) : option (Q * option word) :=
  match w with
  | Whole z => Some (inject_Z z, None)
  | Part z q r => if whole then Some (inject_Z z, Some r) else Some (q, None)
  | Frac q => if whole then None else Some (q, None)
  | Junk => None
  end.

(** is >> x1 >> x2 ...: [slots] the types and contents of the variables, [good] the stream state.  A missing word leaves the
    variable as it is, a failure stores 0; after either nothing more is stored. *)
Fixpoint extract (slots : list (bool * value Q)) (good : bool) (ws : list word) : list (value Q) * bool * list word :=
  match slots with
  | [] => ([], good, ws)
  | (whole, v) :: vs =>
    if good then
      match ws with
      | [] => let '(l, g, r) := extract vs false [] in (v :: l, g, r)
      | w :: r =>
        match take whole w with
        | Some (q, None) => let '(l, g, r') := extract vs true r in (Known q :: l, g, r')
        | Some (q, Some w') => let '(l, g, r') := extract vs true (w' :: r) in (Known q :: l, g, r')
        | None => let '(l, g, r') := extract vs false (w :: r) in (Known 0 :: l, g, r')
        end
      end
    else let '(l, g, r) := extract vs false ws in (v :: l, g, r)
  end.
