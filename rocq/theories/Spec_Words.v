(** What sequences of moves do as a whole: the vocabulary. *)

From Coq Require Import List Bool Arith NArith.
From Verif Require Import Model_Base Model_Space Model_Moves Model_Pieces Model_PieceSet Model_Cubes
  Spec_Moves Spec_Sets Spec_BigLaws.
Import ListNotations.
Open Scope nat_scope.

(** The state after the moves of an alg, in order. *)
Definition after (n : CubeSize) (al : list AxisMove) (c : CubeOf n) : CubeOf n := fold_left (cube_apply n) al c.
Definition after_wide (n : CubeSize) (al : list WideAxisMove) (c : CubeOf n) : CubeOf n := fold_left (cube_apply_wide n) al c.

(** A wide move or a sequence of wide moves seen from another side: the face is rotated, the
    number of layers and the amount stay. *)
Definition rotate_wide (w : WideAxisMove) (r : AxisRotation) : WideAxisMove :=
  mkWide (w_depth w) (rotate_move (w_move w) r).
Definition rotate_wide_alg (al : list WideAxisMove) (r : AxisRotation) : list WideAxisMove :=
  map (fun w => rotate_wide w r) al.

(** Quarter turns in an alg, all faces together. *)
Definition total_turns (al : list AxisMove) : nat := list_sum (map (fun m => quarter_turns (mv_amount m)) al).

(** After how many rounds everything is back, whatever the alg: 2520 is the least common
    multiple of 1..8 times 3 (corners go round at most 8 places and may come back twisted),
    55440 that of 1..12 times 2 (edges), 5354228880 that of 1..24 (centres and wings). Plain
    moves turn a big cube like a 2x2x2 or a 3x3x3 (C16), wide moves do not. *)
Definition period_of_algs (n : CubeSize) : N :=
  match n with Size2 | Size4 | Size6 => 2520 | Size3 | Size5 | Size7 => 55440 end%N.
Definition period_of_wide_algs (n : CubeSize) : N :=
  match n with Size2 => 2520 | Size3 => 55440 | _ => 5354228880 end%N.

(** The small cube whose corners (and edges) a cube has. *)
Definition small_size (n : CubeSize) : CubeSize :=
  match n with Size2 | Size4 | Size6 => Size2 | Size3 | Size5 | Size7 => Size3 end.
Definition small_part (n : CubeSize) : CubeOf n -> CubeOf (small_size n) :=
  match n with
  | Size2 => fun c => c
  | Size3 => fun c => c
  | Size4 => fun c => mkCube2 (c4_corners c)
  | Size5 => fun c => mkCube3 (c5_edges c) (c5_corners c)
  | Size6 => fun c => mkCube2 (c6_corners c)
  | Size7 => fun c => mkCube3 (c7_edges c) (c7_corners c)
  end.

(** A cube is back after [k] rounds of an alg and not before. *)
Definition rounds_needed (n : CubeSize) (al : list AxisMove) (c : CubeOf n) (k : N) : Prop :=
  (0 < k)%N /\ N.iter k (after n al) c = c /\ forall j, (0 < j < k)%N -> N.iter j (after n al) c <> c.

(** The numbers of rounds that algs need: 17 on the 2x2x2, 4x4x4 and 6x6x6, 73 on the 3x3x3,
    5x5x5 and 7x7x7. *)
Definition possible_rounds (n : CubeSize) : list N :=
  match n with
  | Size2 | Size4 | Size6 => [1; 2; 3; 4; 5; 6; 7; 8; 9; 10; 12; 15; 18; 21; 30; 36; 45]
  | Size3 | Size5 | Size7 =>
      [1; 2; 3; 4; 5; 6; 7; 8; 9; 10; 11; 12; 14; 15; 16; 18; 20; 21; 22; 24; 28; 30; 33; 35; 36;
       40; 42; 44; 45; 48; 55; 56; 60; 63; 66; 70; 72; 77; 80; 84; 90; 99; 105; 110; 112; 120; 126;
       132; 140; 144; 154; 165; 168; 180; 198; 210; 231; 240; 252; 280; 315; 330; 336; 360; 420;
       462; 495; 504; 630; 720; 840; 990; 1260]
  end%N.
Definition most_rounds (n : CubeSize) : N :=
  match n with Size2 | Size4 | Size6 => 45 | Size3 | Size5 | Size7 => 1260 end%N.

(** The same for algs of wide moves.  The numbers of rounds they need are the divisors of these
    numbers. *)
Definition wide_rounds_needed (n : CubeSize) (al : list WideAxisMove) (c : CubeOf n) (k : N) : Prop :=
  (0 < k)%N /\ N.iter k (after_wide n al) c = c /\ forall j, (0 < j < k)%N -> N.iter j (after_wide n al) c <> c.
Definition longest_wide_rounds (n : CubeSize) : list N :=
  match n with
  | Size2 => [8; 21; 30; 36; 45]
  | Size3 => [132; 336; 462; 504; 720; 840; 990; 1260]
  | Size4 =>
      [9384; 10488; 15640; 32844; 36708; 38760; 39468; 45885; 49266; 50232; 54264; 58344;
       59202; 65208; 69069; 70380; 75240; 78660; 82110; 85680; 88920; 91080; 95760; 97240;
       107640; 115920; 123165; 148005; 175560; 204204; 207480; 212520; 228228; 263340;
       285285; 306306; 311220; 318780; 376740; 406980; 437580; 471240; 489060; 510510;
       556920; 720720; 765765]
  | Size5 =>
      [3036; 7728; 9576; 10626; 12540; 13680; 15708; 16560; 18810; 19320; 22770; 23940;
       28980; 31920; 33660; 43890; 48048; 55440; 65520; 85680; 102960; 117810; 120120;
       180180]
  | Size6 | Size7 => [5354228880]
  end%N.
Definition possible_wide_rounds (n : CubeSize) (k : N) : Prop := exists m, In m (longest_wide_rounds n) /\ (k | m)%N.
Definition most_wide_rounds (n : CubeSize) : N :=
  match n with
  | Size2 => 45 | Size3 => 1260 | Size4 => 765765 | Size5 => 180180 | Size6 | Size7 => 5354228880
  end%N.
