(** Specification for C99: which texts are refused, and for which reason. *)

From Coq Require Import List Bool Arith NArith String.
From Verif Require Import Model_Base Model_Space Model_Moves Model_Orientable Model_Parser Spec_Notation.
Import ListNotations.
Local Open Scope string_scope.

(** A wide move whose depth is written with a character that counts as a number but is not one
    of the digits 0 to 9, for example a superscript two. *)
Inductive odd_depth (is_number : N -> bool) : text -> Prop :=
| OddW c f a : is_number c = true -> ~ (48 <= c <= 57)%N ->
    odd_depth is_number (c :: lit (face_name f ++ "w" ++ amount_suffix a))
| OddSmall c f a : is_number c = true -> ~ (48 <= c <= 57)%N ->
    odd_depth is_number (c :: lit (small_face_name f ++ amount_suffix a)).

(** The three reasons why a text is not a wide move of depth at most [n]. *)
Inductive wide_error (is_number : N -> bool) (n : N) (s : text) : ParseError -> Prop :=
| TooDeep w : wide_notation s w -> (n < w_depth w)%N -> wide_error is_number n s (Uknown (ExcededDepth (w_depth w) n))
| OddDepth : odd_depth is_number s -> wide_error is_number n s (NumParseError InvalidDigit)
| NoWide : (forall w, ~ wide_notation s w) -> ~ odd_depth is_number s -> wide_error is_number n s PestError.

(** The two reasons why a text is not an extended move. *)
Inductive extended_error (is_number : N -> bool) (s : text) : ParseError -> Prop :=
| OddWide : odd_depth is_number s -> extended_error is_number s (NumParseError InvalidDigit)
| NoMove : (forall m, ~ extended_notation s m) -> ~ odd_depth is_number s -> extended_error is_number s PestError.

(** The first word of a text that is refused, and why, when [good] and [bad] say which words
    are moves and which are refused. *)
Definition first_bad {E} (good : text -> Prop) (bad : text -> E -> Prop) (t : text) (e : E) : Prop :=
  exists before w after, words t (app before (w :: after)) /\ Forall good before /\ bad w e.
