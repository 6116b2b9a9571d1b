(** Model of /repo/barbarosa/src/generic/piece/set.rs.

    The trait [PieceSetDescriptor] is a record; a [PieceSet<P, N>] is the list of its
    [N] pieces in array order (the length is an explicit hypothesis where needed). *)

From Coq Require Import List Bool Arith Lia.
From Verif Require Import Model_Base Model_Space Model_Moves Model_Pieces.
Import ListNotations.

(** generic/piece/set.rs:20-30 [PieceSetDescriptor] with generic/piece/mod.rs:17-32
    [Piece], plus the derived equalities of the piece and position types. *)
Record PieceDesc (P Pos : Type) := mkDesc {
  pd_position : P -> Pos;
  pd_is_solved : P -> Pos -> bool;
  pd_piece_eqb : P -> P -> bool;
  pd_pos_eqb : Pos -> Pos -> bool;
  pd_solved : list P;
  pd_reference : list Pos
}.
Arguments pd_position {P Pos}.
Arguments pd_is_solved {P Pos}.
Arguments pd_piece_eqb {P Pos}.
Arguments pd_pos_eqb {P Pos}.
Arguments pd_solved {P Pos}.
Arguments pd_reference {P Pos}.

(** generic/piece/set.rs:168-175 [ValidationError]. *)
Inductive ValidationError (P Pos : Type) :=
| DuplicatePosition (p : Pos)
| DuplicatePiece (p : P).
Arguments DuplicatePosition {P Pos} p.
Arguments DuplicatePiece {P Pos} p.

(** generic/piece/set.rs:154-166 [find_duplicates]; [visited] is the vector in push
    order. *)
Fixpoint find_duplicates_from {T} (eqb : T -> T -> bool) (visited l : list T) : option T :=
  match l with
  | [] => None
  | elem :: r =>
      if existsb (eqb elem) visited then Some elem
      else find_duplicates_from eqb (visited ++ [elem]) r
  end.
(** generic/piece/set.rs:154-166 [find_duplicates]: starting with nothing visited. *)
Definition find_duplicates {T} (eqb : T -> T -> bool) (l : list T) : option T :=
  find_duplicates_from eqb [] l.

Section Set_.
  Context {P Pos : Type} (d : PieceDesc P Pos).

  (** generic/piece/set.rs:63-73 [validate]. *)
  Definition set_validate (s : list P) : option (ValidationError P Pos) :=
    match find_duplicates (pd_pos_eqb d) (map (pd_position d) s) with
    | Some dup => Some (DuplicatePosition dup)
    | None =>
        match find_duplicates (pd_piece_eqb d) s with
        | Some dup => Some (DuplicatePiece dup)
        | None => None
        end
    end.

  (** generic/piece/set.rs:53-60 [PieceSet::new]. *)
  Definition set_new (pieces : list P) : result (list P) (ValidationError P Pos) :=
    match set_validate pieces with Some e => Err e | None => Ok pieces end.

  (** generic/piece/set.rs:93-95 [iter_with_pos] (via [zip_positions], 81-85). *)
  Definition iter_with_pos (s : list P) : list (Pos * P) := combine (pd_reference d) s.

  (** generic/piece/set.rs:104-107 [is_solved]. *)
  Definition set_is_solved (s : list P) : bool :=
    forallb (fun x => pd_is_solved d (snd x) (fst x)) (iter_with_pos s).

  (** generic/piece/set.rs:110-115 [piece_originally_at]. *)
  Definition piece_originally_at (s : list P) (target : Pos) : outcome P :=
    match find_first (fun x => pd_pos_eqb d (fst x) target) (iter_with_pos s) with
    | Some x => Done (snd x)
    | None => Panic
    end.

  (** generic/piece/set.rs:118-123 [original_position_of_piece_at]. *)
  Definition original_position_of_piece_at (s : list P) (target : Pos) : outcome Pos :=
    match find_first (fun x => pd_pos_eqb d (pd_position d (snd x)) target)
                     (iter_with_pos s) with
    | Some x => Done (fst x)
    | None => Panic
    end.

  (** generic/piece/set.rs:126-128 [at_index]. *)
  Definition at_index (s : list P) (i : nat) : option P := nth_error s i.

  (** generic/piece/set.rs:138-151 [swap]; a failing [expect] or index is [Panic]. *)
  Definition set_swap (s : list P) (a b : Pos) : outcome (list P) :=
    match find_index (fun p => pd_pos_eqb d p a) (pd_reference d),
          find_index (fun p => pd_pos_eqb d p b) (pd_reference d) with
    | Some ia, Some ib =>
        match nth_error s ia, nth_error s ib with
        | Some pa, Some pb => Done (set_nth (set_nth s ia pb) ib pa)
        | _, _ => Panic
        end
    | _, _ => Panic
    end.
End Set_.

(** generic/piece/set.rs:131-133 [shuffle], i.e. [rand]'s [SliceRandom::shuffle]:
    for [i] from [len-1] down to 1, swap elements [i] and [j], with [j] drawn from
    [0..=i].  The draws are given by an oracle [rng : nat -> nat], reduced mod
    [i+1] so that every function is a possible generator. *)
Fixpoint shuffle_from {T} (rng : nat -> nat) (i : nat) (l : list T) : list T :=
  match i with
  | 0 => l
  | S i' => shuffle_from rng i' (swap_nth l i (Nat.modulo (rng i) (S i)))
  end.
(** [SliceRandom::shuffle] (rand) of a whole slice. *)
Definition shuffle {T} (rng : nat -> nat) (l : list T) : list T :=
  shuffle_from rng (length l - 1) l.

(** Descriptors of the six piece types; see Model_Pieces for the cited constants. *)

(** pieces/corner.rs:31-54. *)
Definition corner_desc : PieceDesc Corner Vec3 :=
  mkDesc _ _ c_pos corner_is_solved corner_eqb vec3_eqb corner_solved corner_reference.
(** pieces/edge.rs:50-99. *)
Definition edge_desc : PieceDesc Edge EdgePos :=
  mkDesc _ _ edge_position edge_is_solved edge_eqb edgepos_eqb edge_solved edge_reference.
(** pieces/wing.rs:32-68. *)
Definition wing_desc : PieceDesc Wing Wing :=
  mkDesc _ _ (fun w => w) wing_eqb wing_eqb wing_eqb wing_solved wing_solved.
(** pieces/center/corner.rs:25-60. *)
Definition cc_desc : PieceDesc CenterCorner CenterCorner :=
  mkDesc _ _ (fun c => c) cc_is_solved cc_eqb cc_eqb cc_solved cc_solved.
(** pieces/center/edge.rs:37-63. *)
Definition ce_desc : PieceDesc CenterEdge CenterEdge :=
  mkDesc _ _ (fun c => c) ce_is_solved ce_eqb ce_eqb ce_solved ce_solved.
(** pieces/center/wing.rs:31-58. *)
Definition cw_desc : PieceDesc CenterWing CenterWing :=
  mkDesc _ _ (fun c => c) cw_is_solved cw_eqb cw_eqb cw_solved cw_solved.
