(** Model of /repo/barbarosa/src/cube_n/moves/non_redundant.rs. *)

From Coq Require Import List Bool Arith Lia.
From Verif Require Import Model_Base Model_Space Model_Moves.
Import ListNotations.

(** non_redundant.rs:34-48 [enum NonRedundantAxisMove]. *)
Inductive NRMove :=
| NRSingle (m : AxisMove)
| NRDouble (a : Axis) (pos neg : Amount).

(** non_redundant.rs:51-53 [single]. *)
Definition nr_single (a : Axis) (d : Direction) (am : Amount) : NRMove :=
  NRSingle (mkMove (mkFace a d) am).

(** non_redundant.rs:64-69 [axis]. *)
Definition nr_axis (m : NRMove) : Axis :=
  match m with NRSingle m => face_axis (mv_face m) | NRDouble a _ _ => a end.

(** non_redundant.rs:72-87 [moves]. *)
Definition nr_moves (m : NRMove) : list AxisMove :=
  match m with
  | NRSingle m => [m]
  | NRDouble a p n => [mkMove (mkFace a Positive) p; mkMove (mkFace a Negative) n]
  end.

(** non_redundant.rs:90-103 [of_axis]; [None] first, then the amounts in order. *)
Definition amounts_with_none : list (option Amount) := None :: map Some amount_iter.
(** non_redundant.rs:90-103 [of_axis]. *)
Definition nr_of_axis (a : Axis) : list NRMove :=
  flat_map (fun p =>
    flat_map (fun n =>
      match p, n with
      | None, None => []
      | Some p, None => [nr_single a Positive p]
      | None, Some n => [nr_single a Negative n]
      | Some p, Some n => [NRDouble a p n]
      end) amounts_with_none) amounts_with_none.

(** non_redundant.rs:118-120 [given_last_axis]. *)
Definition given_last_axis (a : Axis) : list NRMove :=
  let (b1, b2) := basis a in flat_map nr_of_axis [b1; b2].

(** non_redundant.rs:123-125 [all]. *)
Definition nr_all : list NRMove := flat_map nr_of_axis axis_iter.

(** non_redundant.rs:239-253 [enum AbsorveResult]. *)
Inductive AbsorveResult := Absorved | Added | NotAdded | Collapsed.

(** non_redundant.rs:172-237 [absorve]: returns the new value of the accumulator and
    the result. *)
Definition absorve (acc : option NRMove) (other : AxisMove) : option NRMove * AbsorveResult :=
  match acc with
  | None => (Some (NRSingle other), Absorved)
  | Some (NRSingle mov) =>
      if axis_eqb (face_axis (mv_face mov)) (face_axis (mv_face other)) then
        match face_dir (mv_face mov), face_dir (mv_face other) with
        | Positive, Positive | Negative, Negative =>
            match amount_add (mv_amount mov) (mv_amount other) with
            | Some am => (Some (NRSingle (mkMove (mv_face mov) am)), Absorved)
            | None => (None, Collapsed)
            end
        | Positive, Negative =>
            (Some (NRDouble (face_axis (mv_face mov)) (mv_amount mov) (mv_amount other)), Added)
        | Negative, Positive =>
            (Some (NRDouble (face_axis (mv_face mov)) (mv_amount other) (mv_amount mov)), Added)
        end
      else (acc, NotAdded)
  | Some (NRDouble a p n) =>
      if axis_eqb a (face_axis (mv_face other)) then
        match face_dir (mv_face other) with
        | Positive =>
            match amount_add p (mv_amount other) with
            | Some am => (Some (NRDouble a am n), Absorved)
            | None => (Some (nr_single a (dir_neg (face_dir (mv_face other))) n), Collapsed)
            end
        | Negative =>
            match amount_add n (mv_amount other) with
            | Some am => (Some (NRDouble a p am), Absorved)
            | None => (Some (nr_single a (dir_neg (face_dir (mv_face other))) p), Collapsed)
            end
        end
      else (acc, NotAdded)
  end.

(** non_redundant.rs:309-315 closure [offload]: pushes the moves of the accumulator;
    vectors used as stacks are lists with the top first. *)
Definition offload (acc : option NRMove) (out : list AxisMove) : list AxisMove :=
  match acc with
  | None => out
  | Some nr => fold_left (fun o m => m :: o) (nr_moves nr) out
  end.

(** non_redundant.rs:317-335, the [while let] loop of [normalized]. [input] is the
    remaining input with the last move first ([pop] takes the head), [out] the vector
    [moves] with the last pushed move first. [None] means that the fuel ran out. *)
Fixpoint normalize_loop (fuel : nat) (input out : list AxisMove) (acc : option NRMove)
  : option (list AxisMove) :=
  match fuel with
  | 0 => None
  | S fuel =>
      match input with
      | [] => Some (offload acc out)
      | mov :: input =>
          match absorve acc mov with
          | (acc', NotAdded) =>
              let out' := offload acc' out in
              normalize_loop fuel input out' (fst (absorve None mov))
          | (acc', Collapsed) =>
              match offload acc' out with
              | [] => normalize_loop fuel input [] None
              | top :: out' => normalize_loop fuel (top :: input) out' None
              end
          | (acc', _) => normalize_loop fuel input out acc'
          end
      end
  end.

(** Enough fuel for every input (see [normalized_some]).
    Not in /repo: bounds the [while] loop of moves/non_redundant.rs:317. *)
Definition normalize_fuel (al : list AxisMove) : nat := 3 * length al + 2.

(** non_redundant.rs:303-344 [Alg::normalized]. The final [reverse] turns the vector
    (whose last element is the head of [out]) into [out] itself. *)
Definition normalized_opt (al : list AxisMove) : option (list AxisMove) :=
  normalize_loop (normalize_fuel al) (rev al) [] None.
(** non_redundant.rs:303-344 [Alg::normalized]: the loop from the empty output, with enough fuel. *)
Definition normalized (al : list AxisMove) : list AxisMove :=
  match normalized_opt al with Some r => r | None => [] end.

(** [IteratorRandom::choose]: some element, selected by the oracle. *)
Definition choose {T} (pick : nat) (l : list T) : option T := nth_error l (Nat.modulo pick (length l)).

(** non_redundant.rs:271-277: push the chosen moves until the length is reached
    ([moves] with the last pushed move first). *)
Fixpoint push_until (len : nat) (chosen moves : list AxisMove) : list AxisMove :=
  match chosen with
  | [] => moves
  | m :: r =>
      let moves' := m :: moves in
      if Nat.eqb (length moves') len then moves' else push_until len r moves'
  end.

(** non_redundant.rs:257-281 [random_with_rng]: [rng k] is the choice made in the
    [k]-th round. Outer [None]: out of fuel; [Panic]: the [expect] fails. *)
Fixpoint random_loop (fuel len : nat) (rng : nat -> nat) (k : nat) (moves : list AxisMove)
  : option (outcome (list AxisMove)) :=
  match fuel with
  | 0 => None
  | S fuel =>
      if Nat.ltb (length moves) len then
        let pool := match moves with
                    | [] => nr_all
                    | m :: _ => given_last_axis (face_axis (mv_face m))
                    end in
        match choose (rng k) pool with
        | None => Some Panic
        | Some nr => random_loop fuel len rng (S k) (push_until len (nr_moves nr) moves)
        end
      else Some (Done (rev moves))
  end.
(** non_redundant.rs:257-281 [random_with_rng] from the empty alg. *)
Definition random_alg (len : nat) (rng : nat -> nat) : option (outcome (list AxisMove)) :=
  random_loop (S len) len rng 0 [].

(** non_redundant.rs:347-362 [Move::inverse]. *)
Definition nr_inverse (m : NRMove) : NRMove :=
  match m with
  | NRSingle m => NRSingle (move_inverse m)
  | NRDouble a p n => NRDouble a (amount_mul p Negative) (amount_mul n Negative)
  end.

(** non_redundant.rs:364-370 [Movable<NonRedundantAxisMove>]. *)
Definition apply_nr {C} (app : C -> AxisMove -> C) (c : C) (m : NRMove) : C :=
  fold_left app (nr_moves m) c.

(** non_redundant.rs:378-382 and 384-396 conversions to [Alg<AxisMove>]. *)
Definition nr_alg (al : list NRMove) : list AxisMove := flat_map nr_moves al.
