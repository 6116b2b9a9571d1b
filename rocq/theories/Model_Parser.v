(** Model of the text interface: the grammar /repo/barbarosa/src/grammar/cube_n.pest, the
    code that turns its parse trees into moves (/repo/barbarosa/src/cube_n/parser/mod.rs,
    /repo/barbarosa/src/generic/parse.rs, /repo/barbarosa/src/generic/alg.rs) and the
    [Display] impls of moves.

    A [&str] is the list of its Unicode code points.  The [pest] library is modelled by an
    interpreter of its parsing expressions (ordered choice, sequence, option, literals,
    rules producing pairs); only error {e positions and messages} are left out.  The
    character class [NUMBER] of [pest] (Unicode general category N) is a parameter. *)

From Coq Require Import List Bool Arith NArith String Ascii.
From Verif Require Import Model_Base Model_Space Model_Moves Model_NonRedundant Model_Orientable.
Import ListNotations.
Local Open Scope list_scope.

(** [&str] as a list of code points. The argument of generic/parse.rs:55. *)
Definition text : Type := list N.

(** String literals of the code (all ASCII). E.g. parser/mod.rs:42-44. *)
Fixpoint lit (s : string) : text :=
  match s with
  | EmptyString => []
  | String c r => N_of_ascii c :: lit r
  end.

(** [==] on strings. E.g. the patterns of parser/mod.rs:41-45. *)
Fixpoint text_eqb (a b : text) : bool :=
  match a, b with
  | [], [] => true
  | x :: r, y :: s => N.eqb x y && text_eqb r s
  | _, _ => false
  end.

(* ------------------------------------------------------------------ *)
(** * Parsing expressions *)

(** cube_n.pest:1-20: the rules (the comment and whitespace rules, 22-26, cannot be
    reached: every sequence is inside a compound-atomic rule [${..}]). *)
Inductive Rule :=
| r_face | r_face_small | r_amount | r_axis_move | r_wide_face | r_depth | r_wide_move
| r_axis | r_rotation | r_slice | r_slice_small | r_slice_move | r_extended_move.

(** Parsing expressions of the [pest] library, as far as cube_n.pest uses them. *)
Inductive peg :=
| PLit (s : text)
| PNumber
| PSeq (a b : peg)
| PAlt (a b : peg)
| POpt (a : peg)
| PRule (r : Rule).

(** A [Pair]: the rule, the text it matched, the pairs inside. [pest::iterators::Pair], used in parser/mod.rs:30. *)
Inductive Pair := mkPair (r : Rule) (s : text) (inner : list Pair).
(** [Pair::as_rule] (pest). *)
Definition pair_rule (p : Pair) : Rule := match p with mkPair r _ _ => r end.
(** [Pair::as_str] (pest). *)
Definition pair_str (p : Pair) : text := match p with mkPair _ s _ => s end.
(** [Pair::into_inner] (pest). *)
Definition pair_inner (p : Pair) : list Pair := match p with mkPair _ _ i => i end.

(** Choice among one-letter literals. grammar/cube_n.pest. *)
Fixpoint lits (first : string) (rest : list string) : peg :=
  match rest with
  | [] => PLit (lit first)
  | s :: rest => PAlt (PLit (lit first)) (lits s rest)
  end.

(** cube_n.pest:1-20. *)
Definition grammar (r : Rule) : peg :=
  match r with
  | r_face => lits "R" ["U"; "F"; "L"; "D"; "B"]                             (* 1 *)
  | r_face_small => lits "r" ["u"; "f"; "l"; "d"; "b"]                       (* 2 *)
  | r_amount => lits "2" ["'"; ""]                                           (* 4 *)
  | r_axis_move => PSeq (PRule r_face) (PRule r_amount)                      (* 5 *)
  | r_wide_face => PAlt (PSeq (PRule r_face) (PLit (lit "w"))) (PRule r_face_small)  (* 7 *)
  | r_depth => POpt PNumber                                                  (* 8 *)
  | r_wide_move =>
      PSeq (PAlt (PSeq (PRule r_depth) (PRule r_wide_face)) (PRule r_face)) (PRule r_amount) (* 9 *)
  | r_axis => lits "x" ["y"; "z"]                                            (* 11 *)
  | r_rotation => PSeq (PRule r_axis) (PRule r_amount)                       (* 12 *)
  | r_slice => lits "M" ["E"; "S"]                                           (* 14 *)
  | r_slice_small => lits "m" ["e"; "s"]                                     (* 15 *)
  | r_slice_move => PSeq (PAlt (PRule r_slice) (PRule r_slice_small)) (PRule r_amount) (* 17 *)
  | r_extended_move =>
      PAlt (PRule r_wide_move) (PAlt (PRule r_axis_move) (PAlt (PRule r_rotation) (PRule r_slice_move))) (* 19 *)
  end%string.

(** Result of running an expression: pairs produced, text consumed, text left.
    pest, used in generic/parse.rs:56-60. *)
Inductive peg_result :=
| PegOk (pairs : list Pair) (consumed rest : text)
| PegFail
| PegFuel.

(** Remove a prefix. pest, for the literals of grammar/cube_n.pest. *)
Fixpoint strip_prefix (p s : text) : option text :=
  match p, s with
  | [], s => Some s
  | x :: p, y :: s => if N.eqb x y then strip_prefix p s else None
  | _ :: _, [] => None
  end.

Section Pest.
  (** [pest]'s [NUMBER]: is the code point in the general category N? *)
  Context (is_number : N -> bool).

  (** The [pest] virtual machine; [fuel] bounds the nesting of expressions ([grammar] is
      not recursive, ten levels suffice). *)
  Fixpoint peg_run (fuel : nat) (e : peg) (s : text) : peg_result :=
    match fuel with
    | 0 => PegFuel
    | S fuel =>
        match e with
        | PLit p => match strip_prefix p s with Some rest => PegOk [] p rest | None => PegFail end
        | PNumber =>
            match s with
            | c :: rest => if is_number c then PegOk [] [c] rest else PegFail
            | [] => PegFail
            end
        | PSeq a b =>
            match peg_run fuel a s with
            | PegOk p1 c1 rest =>
                match peg_run fuel b rest with
                | PegOk p2 c2 rest => PegOk (p1 ++ p2) (c1 ++ c2) rest
                | r => r
                end
            | r => r
            end
        | PAlt a b =>
            match peg_run fuel a s with
            | PegFail => peg_run fuel b s
            | r => r
            end
        | POpt a =>
            match peg_run fuel a s with
            | PegFail => PegOk [] [] s
            | r => r
            end
        | PRule r =>
            match peg_run fuel (grammar r) s with
            | PegOk inner c rest => PegOk [mkPair r c inner] c rest
            | x => x
            end
        end
    end.

  (* ---------------------------------------------------------------- *)
  (** * From parse trees to values *)

  (** [std::num::ParseIntError] by its kind, for an unsigned type (core); carried by
      generic/parse.rs:90-91. *)
  Inductive IntErrorKind := Empty | InvalidDigit | PosOverflow.

  (** generic/parse.rs:80-98 [ParseError]; what it displays is in Model_Errors. The content of
      the error of [pest] is left out. *)
  Inductive ParseError :=
  | PestError
  | Unreachable (s : text)
  | NumParseError (e : IntErrorKind)
  | UnexpectedEndOfTokens
  | Uknown (e : WideMoveCreationError).

  (** generic/parse.rs:52-75 [Parsable::parse] for a [FromPest] type; running out of fuel
      cannot happen and is [Panic], as are the [unwrap] and the [debug_assert!]. *)
  Definition parse_rule {T} (r : Rule) (from_pest : Pair -> outcome (result T ParseError)) (s : text)
    : outcome (result T ParseError) :=
    match peg_run 24 (PRule r) s with
    | PegFuel => Panic
    | PegFail => Done (Err PestError)
    | PegOk pairs _ rest =>
        match pairs with
        | [p] =>
            match rest with
            | _ :: _ => Done (Err PestError)
            | [] => from_pest p
            end
        | _ => Panic
        end
    end.

  (** The [?] operator. E.g. parser/mod.rs:70-71. *)
  Definition bind_p {A B} (x : outcome (result A ParseError)) (f : A -> outcome (result B ParseError))
    : outcome (result B ParseError) :=
    match x with
    | Panic => Panic
    | Done (Err e) => Done (Err e)
    | Done (Ok a) => f a
    end.
  (** [Ok]. E.g. parser/mod.rs:73. *)
  Definition ret {A} (a : A) : outcome (result A ParseError) := Done (Ok a).
  (** [Err]. E.g. parser/mod.rs:45. *)
  Definition fail {A} (e : ParseError) : outcome (result A ParseError) := Done (Err e).

  (** generic/parse.rs:118-125 [into_err], combined with [Iterator::next] on the pairs. *)
  Definition next_pair {A} (l : list Pair) (f : Pair -> list Pair -> outcome (result A ParseError))
    : outcome (result A ParseError) :=
    match l with [] => fail UnexpectedEndOfTokens | p :: r => f p r end.

  (** A [match pair.as_str() { .. }]. parser/mod.rs:41, 53, 138, 160. *)
  Fixpoint match_str {A} (cases : list (string * A)) (s : text) : outcome (result A ParseError) :=
    match cases with
    | [] => fail (Unreachable s)
    | (k, v) :: r => if text_eqb s (lit k) then ret v else match_str r s
    end.

  (** parser/mod.rs:37-47. *)
  Definition amount_from_pest (p : Pair) : outcome (result Amount ParseError) :=
    match_str [(""%string, Single); ("2"%string, Double); ("'"%string, Inverse)] (pair_str p).

  (** parser/mod.rs:49-62. *)
  Definition face_from_pest (p : Pair) : outcome (result Face ParseError) :=
    match_str [("U"%string, fU); ("D"%string, fD); ("L"%string, fL); ("R"%string, fR);
               ("F"%string, fF); ("B"%string, fB)] (pair_str p).

  (** [Face::parse]. generic/parse.rs:55-74 with parser/mod.rs:49-62. *)
  Definition parse_face : text -> outcome (result Face ParseError) := parse_rule r_face face_from_pest.

  (** parser/mod.rs:64-75. *)
  Definition move_from_pest (p : Pair) : outcome (result AxisMove ParseError) :=
    next_pair (pair_inner p) (fun p1 rest =>
    bind_p (face_from_pest p1) (fun face =>
    next_pair rest (fun p2 _ =>
    bind_p (amount_from_pest p2) (fun amount =>
    ret (mkMove face amount))))).

  (** [str::parse::<u32>] (core): an optional [+], then at least one ASCII digit, no
      overflow. Of a digit that is invalid and a product that is too large the first is
      reported. *)
  Fixpoint digits_value (acc : N) (s : text) : result N IntErrorKind :=
    match s with
    | [] => Ok acc
    | c :: r =>
        if N.leb 48 c && N.leb c 57 then
          let v := (acc * 10 + (c - 48))%N in
          if N.leb v u32_max then digits_value v r else Err PosOverflow
        else Err InvalidDigit
    end.
  (** [str::parse::<u32>] (core), used at parser/mod.rs:82 for the depth. *)
  Definition parse_u32 (s : text) : result N IntErrorKind :=
    match s with
    | [] => Err Empty
    | c :: r =>
        if N.eqb c 43 then match r with [] => Err InvalidDigit | _ => digits_value 0 r end
        else digits_value 0 s
    end.

  (** parser/mod.rs:77-84. *)
  Definition depth_from_pest (p : Pair) : outcome (result N ParseError) :=
    match pair_str p with
    | [] => ret 0%N
    | s => match parse_u32 s with Ok n => ret n | Err e => fail (NumParseError e) end
    end.

  (** [str::to_ascii_uppercase]. std, parser/mod.rs:87. *)
  Definition ascii_upper (c : N) : N := if N.leb 97 c && N.leb c 122 then (c - 32)%N else c.

  (** parser/mod.rs:86-88. *)
  Definition parse_face_small (p : Pair) : outcome (result Face ParseError) :=
    parse_face (map ascii_upper (pair_str p)).

  (** parser/mod.rs:90-98. *)
  Definition parse_face_wide (p : Pair) : outcome (result Face ParseError) :=
    next_pair (pair_inner p) (fun first rest =>
      match rest with
      | _ :: _ => face_from_pest first
      | [] => parse_face_small first
      end).

  (** parser/mod.rs:100-132, for the const generic [n]. *)
  Definition wide_from_pest (n : N) (p : Pair) : outcome (result WideAxisMove ParseError) :=
    next_pair (pair_inner p) (fun first rest =>
    let face_depth :=
      match pair_rule first with
      | r_face => bind_p (face_from_pest first) (fun face => ret (face, 0%N, rest))
      | r_depth =>
          next_pair rest (fun second rest =>
          bind_p (parse_face_wide second) (fun face =>
          bind_p (depth_from_pest first) (fun depth =>
          ret (face, N.max depth 1, rest))))
      | _ => fail (Unreachable (pair_str first))
      end in
    bind_p face_depth (fun fdr =>
    let '(face, depth, rest) := fdr in
    if N.ltb n depth then fail (Uknown (ExcededDepth depth n))
    else
      next_pair rest (fun p3 _ =>
      bind_p (amount_from_pest p3) (fun amount =>
      match wide_new n face amount depth with
      | Ok w => ret w
      | Err e => fail (Uknown e)
      end)))).

  (** parser/mod.rs:134-144. *)
  Definition axis_from_pest (p : Pair) : outcome (result Axis ParseError) :=
    match_str [("x"%string, AX); ("y"%string, AY); ("z"%string, AZ)] (pair_str p).

  (** parser/mod.rs:146-157. *)
  Definition rotation_from_pest (p : Pair) : outcome (result AxisRotation ParseError) :=
    next_pair (pair_inner p) (fun p1 rest =>
    bind_p (axis_from_pest p1) (fun axis =>
    next_pair rest (fun p2 _ =>
    bind_p (amount_from_pest p2) (fun amount =>
    ret (mkRot axis amount))))).

  (** parser/mod.rs:159-169. *)
  Definition slice_from_pest (p : Pair) : outcome (result (Axis * bool) ParseError) :=
    match_str [("M"%string, (AX, false)); ("m"%string, (AX, true));
               ("E"%string, (AY, false)); ("e"%string, (AY, true));
               ("S"%string, (AZ, false)); ("s"%string, (AZ, true))] (pair_str p).

  (** parser/mod.rs:171-183. *)
  Definition slice_move_from_pest (p : Pair) : outcome (result (AxisRotation * bool) ParseError) :=
    next_pair (pair_inner p) (fun p1 rest =>
    bind_p (slice_from_pest p1) (fun aw =>
    let (axis, wide) := aw in
    next_pair rest (fun p2 _ =>
    bind_p (amount_from_pest p2) (fun amount =>
    let amount := if negb (axis_eqb axis AZ) then amount_mul amount Negative else amount in
    ret (mkRot axis amount, wide))))).

  (** parser/mod.rs:185-211. *)
  Definition extended_from_pest (p : Pair) : outcome (result ExtendedAxisMove ParseError) :=
    next_pair (pair_inner p) (fun p _ =>
      match pair_rule p with
      | r_axis_move => bind_p (move_from_pest p) (fun m => ret (XRegular m))
      | r_wide_move =>
          bind_p (wide_from_pest u32_max p) (fun w =>
          ret (if N.eqb (w_depth w) 0 then XRegular (w_move w) else XWide w))
      | r_rotation => bind_p (rotation_from_pest p) (fun r => ret (XRotation r))
      | r_slice_move => bind_p (slice_move_from_pest p) (fun rw => ret (XSlice (fst rw) (snd rw)))
      | _ => fail (Unreachable (pair_str p))
      end).

  (** [AxisMove::parse], [WideAxisMove::<N>::parse], [AxisRotation::parse],
      [ExtendedAxisMove::parse]. generic/parse.rs:55-74 with parser/mod.rs:64-75, 100-132, 146-157, 185-211. *)
  Definition parse_move : text -> outcome (result AxisMove ParseError) :=
    parse_rule r_axis_move move_from_pest.
  (** [WideAxisMove::<N>::parse]: generic/parse.rs with parser/mod.rs. *)
  Definition parse_wide (n : N) : text -> outcome (result WideAxisMove ParseError) :=
    parse_rule r_wide_move (wide_from_pest n).
  (** [Amount::parse]: generic/parse.rs:55-74 with parser/mod.rs:37-47. *)
  Definition parse_amount : text -> outcome (result Amount ParseError) := parse_rule r_amount amount_from_pest.
  (** [Axis::parse]: generic/parse.rs:55-74 with parser/mod.rs:134-144. *)
  Definition parse_axis : text -> outcome (result Axis ParseError) := parse_rule r_axis axis_from_pest.
  (** [AxisRotation::parse]: generic/parse.rs with parser/mod.rs. *)
  Definition parse_rotation : text -> outcome (result AxisRotation ParseError) :=
    parse_rule r_rotation rotation_from_pest.
  (** [ExtendedAxisMove::parse]: generic/parse.rs with parser/mod.rs. *)
  Definition parse_extended : text -> outcome (result ExtendedAxisMove ParseError) :=
    parse_rule r_extended_move extended_from_pest.
End Pest.

(* ------------------------------------------------------------------ *)
(** * Algs *)

(** [char::is_whitespace] (core): the Unicode property White_Space. *)
Definition is_whitespace (c : N) : bool :=
  (N.leb 9 c && N.leb c 13) || N.eqb c 32 || N.eqb c 133 || N.eqb c 160 || N.eqb c 5760
  || (N.leb 8192 c && N.leb c 8202) || N.eqb c 8232 || N.eqb c 8233 || N.eqb c 8239
  || N.eqb c 8287 || N.eqb c 12288.

(** [str::split_whitespace]: the maximal runs of non-whitespace characters; [word] is the
    run being read. std, generic/alg.rs:53. *)
Fixpoint split_words (word : text) (s : text) : list text :=
  match s with
  | [] => match word with [] => [] | _ => [word] end
  | c :: r =>
      if is_whitespace c then
        match word with [] => split_words [] r | _ => word :: split_words [] r end
      else split_words (word ++ [c]) r
  end.
(** [str::split_whitespace] (core), used at generic/alg.rs:124-133. *)
Definition split_whitespace (s : text) : list text := split_words [] s.

(** [collect::<Result<Vec<_>, _>>]: stops at the first error. generic/alg.rs:53. *)
Fixpoint parse_all {M} (parse : text -> outcome (result M ParseError)) (words : list text)
  : outcome (result (list M) ParseError) :=
  match words with
  | [] => Done (Ok [])
  | w :: r => bind_p (parse w) (fun m => bind_p (parse_all parse r) (fun ms => Done (Ok (m :: ms))))
  end.

(** generic/alg.rs:45-57 [Alg::parse] (also [TryFrom<&str>], 124-133). *)
Definition parse_alg {M} (parse : text -> outcome (result M ParseError)) (s : text)
  : outcome (result (list M) ParseError) :=
  parse_all parse (split_whitespace s).

(* ------------------------------------------------------------------ *)
(** * Display *)

(** space/face.rs:33-44. *)
Definition display_face (f : Face) : text :=
  lit match f with
      | mkFace AX Positive => "R" | mkFace AX Negative => "L"
      | mkFace AY Positive => "U" | mkFace AY Negative => "D"
      | mkFace AZ Positive => "F" | mkFace AZ Negative => "B"
      end.

(** moves/amount.rs:15-23. *)
Definition display_amount (a : Amount) : text :=
  lit match a with Single => "" | Double => "2" | Inverse => "'" end.

(** moves/mod.rs:90-94. *)
Definition display_move (m : AxisMove) : text := display_face (mv_face m) ++ display_amount (mv_amount m).

(** [Display for u32]: decimal digits, no leading zero. std, used in the [Display] of moves/wide.rs. *)
Fixpoint decimal_digits (fuel : nat) (n : N) (acc : text) : text :=
  match fuel with
  | 0 => acc
  | S fuel =>
      let acc := (48 + n mod 10)%N :: acc in
      if N.ltb n 10 then acc else decimal_digits fuel (n / 10) acc
  end.
(** [Display for u32] (core), used at moves/wide.rs:114. *)
Definition display_u32 (n : N) : text := decimal_digits 10 n [].

(** moves/wide.rs:106-120; [i + 1] overflows (a panic in a debug build) for
    [i = u32::MAX]. *)
Definition display_wide (w : WideAxisMove) : outcome text :=
  let f := display_face (mv_face (w_move w)) in
  let a := display_amount (mv_amount (w_move w)) in
  match w_depth w with
  | 0%N => Done (display_move (w_move w))
  | 1%N => Done (f ++ lit "w" ++ a)
  | i => if N.eqb i u32_max then Panic
         else Done (display_u32 (i + 1) ++ f ++ lit "w" ++ a)
  end.

(** [Itertools::join]. generic/alg.rs:141, moves/non_redundant.rs:400. *)
Fixpoint join (sep : text) (l : list text) : text :=
  match l with
  | [] => []
  | [x] => x
  | x :: r => x ++ sep ++ join sep r
  end.

(** generic/alg.rs:136-143 [Display for Alg]. *)
Definition display_alg {M} (display : M -> text) (al : list M) : text :=
  join (lit " ") (map display al).

(** moves/non_redundant.rs:398-402 [Display for NonRedundantAxisMove]. *)
Definition display_nr (m : NRMove) : text := join (lit " ") (map display_move (nr_moves m)).
