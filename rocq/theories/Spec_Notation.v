(** Specification of the move notation, as documented for users: which texts denote which
    moves.  Nothing here mentions the grammar or the parser. *)

From Coq Require Import List Bool Arith NArith String.
From Verif Require Import Model_Base Model_Space Model_Moves Model_Orientable Model_Parser.
Import ListNotations.
Local Open Scope string_scope.

Definition face_name (f : Face) : string :=
  match f with
  | mkFace AX Positive => "R" | mkFace AX Negative => "L"
  | mkFace AY Positive => "U" | mkFace AY Negative => "D"
  | mkFace AZ Positive => "F" | mkFace AZ Negative => "B"
  end.
Definition small_face_name (f : Face) : string :=
  match f with
  | mkFace AX Positive => "r" | mkFace AX Negative => "l"
  | mkFace AY Positive => "u" | mkFace AY Negative => "d"
  | mkFace AZ Positive => "f" | mkFace AZ Negative => "b"
  end.
Definition amount_suffix (a : Amount) : string :=
  match a with Single => "" | Double => "2" | Inverse => "'" end.
Definition rotation_name (a : Axis) : string :=
  match a with AX => "x" | AY => "y" | AZ => "z" end.
Definition slice_name (a : Axis) : string :=
  match a with AX => "M" | AY => "E" | AZ => "S" end.
Definition small_slice_name (a : Axis) : string :=
  match a with AX => "m" | AY => "e" | AZ => "s" end.

(** A face and a suffix. *)
Definition move_notation (m : AxisMove) : text := lit (face_name (mv_face m) ++ amount_suffix (mv_amount m)).
Definition rotation_notation (r : AxisRotation) : text :=
  lit (rotation_name (rot_axis r) ++ amount_suffix (rot_amount r)).

(** A digit 0..9. *)
Definition digit (d : N) : text := [(48 + d)%N].

(** Wide moves: a plain face is depth 0; a small letter or a face followed by [w] is depth 1;
    with a leading digit the depth is the digit, at least 1. *)
Inductive wide_notation : text -> WideAxisMove -> Prop :=
| WidePlain f a : wide_notation (lit (face_name f ++ amount_suffix a)) (mkWide 0 (mkMove f a))
| WideW f a : wide_notation (lit (face_name f ++ "w" ++ amount_suffix a)) (mkWide 1 (mkMove f a))
| WideSmall f a : wide_notation (lit (small_face_name f ++ amount_suffix a)) (mkWide 1 (mkMove f a))
| WideDigitW d f a : (d <= 9)%N ->
    wide_notation (app (digit d) (lit (face_name f ++ "w" ++ amount_suffix a))) (mkWide (N.max 1 d) (mkMove f a))
| WideDigitSmall d f a : (d <= 9)%N ->
    wide_notation (app (digit d) (lit (small_face_name f ++ amount_suffix a))) (mkWide (N.max 1 d) (mkMove f a)).

(** Slice moves: [M] turns like [L], [E] like [D], [S] like [F]; as rotations around the
    positive axes these are [x'], [y'] and [z]. *)
Definition reverse_amount (a : Amount) : Amount :=
  match a with Single => Inverse | Double => Double | Inverse => Single end.
Definition slice_rotation (x : Axis) (a : Amount) : AxisRotation :=
  match x with AZ => mkRot AZ a | _ => mkRot x (reverse_amount a) end.

(** Extended moves. *)
Inductive extended_notation : text -> ExtendedAxisMove -> Prop :=
| ExtFace m : extended_notation (move_notation m) (XRegular m)
| ExtWide s w : wide_notation s w -> (1 <= w_depth w)%N -> extended_notation s (XWide w)
| ExtRotation r : extended_notation (rotation_notation r) (XRotation r)
| ExtSlice x a : extended_notation (lit (slice_name x ++ amount_suffix a)) (XSlice (slice_rotation x a) false)
| ExtSmallSlice x a :
    extended_notation (lit (small_slice_name x ++ amount_suffix a)) (XSlice (slice_rotation x a) true).

(** The characters that separate words: Unicode's White_Space, that is tab, line feed, vertical
    tab, form feed, carriage return, space, next line, no-break space, ogham space, the
    spaces U+2000 to U+200A, line and paragraph separator, narrow no-break space, medium
    mathematical space and ideographic space. *)
Definition white_space : list N :=
  [9; 10; 11; 12; 13; 32; 133; 160; 5760;
   8192; 8193; 8194; 8195; 8196; 8197; 8198; 8199; 8200; 8201; 8202;
   8232; 8233; 8239; 8287; 12288]%N.

(** [words s l]: the text [s] consists of the non-empty words [l], which contain no white
    space, separated by white space and possibly preceded and followed by white space. *)
Definition white (s : text) : Prop := forall c, In c s -> In c white_space.
Definition dark (s : text) : Prop := forall c, In c s -> ~ In c white_space.
Inductive words : text -> list text -> Prop :=
| WordsEnd w : white w -> words w []
| WordsLast w x : white w -> dark x -> x <> [] -> words (app w x) [x]
| WordsCons w x c s l : white w -> dark x -> x <> [] -> In c white_space -> words s l ->
    words (app w (app x (c :: s))) (x :: l).

(** What is known about the character class [NUMBER]: its ASCII members are the digits. *)
Definition number_class (is_number : N -> bool) : Prop :=
  forall c, (c < 128)%N -> is_number c = true <-> (48 <= c <= 57)%N.
