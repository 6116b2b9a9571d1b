(** Model of the messages of the errors a user meets when a text is not a move:
    [Display] of the error types of /repo/barbarosa/src/generic/parse.rs and
    cube_n/moves/wide.rs, and what the playground writes about them. *)

From Coq Require Import List Bool Arith NArith String.
From Verif Require Import Model_Base Model_Space Model_Moves Model_Parser Model_Playground.
Import ListNotations.

(** [Display for ParseIntError] (core), used by the [{0}] of generic/parse.rs:90. *)
Definition display_int_error (e : IntErrorKind) : text :=
  lit match e with
      | Empty => "cannot parse integer from empty string"
      | InvalidDigit => "invalid digit found in string"
      | PosOverflow => "number too large to fit in target type"
      end.

(** moves/wide.rs:99-104 [#[error(..)]] of [WideMoveCreationError]. *)
Definition display_creation_error (e : WideMoveCreationError) : text :=
  match e with
  | ExcededDepth given max =>
      lit "Exceded maximum depth (given: " ++ display_u32 given ++ lit ", max: " ++ display_u32 max ++ lit ")"
  end.

(** generic/parse.rs:80-98 [#[error(..)]] of [ParseError]. What [pest] itself displays is the
    parameter [pest]. *)
Definition display_parse_error (pest : text) (e : ParseError) : text :=
  match e with
  | PestError => pest
  | Unreachable s => lit "Found unexpected string: " ++ s
  | NumParseError e => lit "Error while parsing number: " ++ display_int_error e
  | UnexpectedEndOfTokens => lit "Unexpected end of tokens"
  | Uknown e => lit "Statically uknown error: " ++ display_creation_error e
  end.

(** main.rs:54 [eprintln!], without the line break; [io] is what the error of a read displays. *)
Definition error_line (io pest : text) (e : PlayError) : text :=
  lit "Error: " ++ match e with NotRead => io | NotParsed e => display_parse_error pest e end.
