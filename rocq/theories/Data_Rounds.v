(** Tables for the numbers of rounds of wide algs (Proof_Rounds.v), found by a program; all of them are
    checked there.

    The orders of permutations, the largest ones in the sense of divisibility, with the parity
    ([true] for odd). *)

From Coq Require Import List NArith Bool.
From Verif Require Import Model_Cubes Model_Moves.
Import ListNotations.

(** For 0, 1, ..., 24 places. *)
Definition orbit_covers : list (list (N * bool)) :=
  [
    [(1, false)];
    [(1, false)];
    [(1, false); (2, true)];
    [(3, false); (2, true)];
    [(2, false); (3, false); (4, true)];
    [(2, false); (3, false); (5, false); (4, true); (6, true)];
    [(3, false); (4, false); (5, false); (4, true); (6, true)];
    [(4, false); (5, false); (6, false); (7, false); (10, true); (12, true)];
    [(4, false); (6, false); (7, false); (15, false); (8, true); (10, true); (12, true)];
    [(7, false); (9, false); (10, false); (12, false); (15, false); (8, true); (12, true); (14, true); (20, true)];
    [(8, false); (9, false); (10, false); (12, false); (15, false); (21, false); (8, true); (12, true); (14, true);
     (20, true); (30, true)];
    [(8, false); (9, false); (11, false); (12, false); (14, false); (15, false); (20, false); (21, false); (18, true);
     (20, true); (24, true); (28, true); (30, true)];
    [(8, false); (9, false); (11, false); (12, false); (14, false); (20, false); (21, false); (30, false); (35, false);
     (18, true); (24, true); (28, true); (42, true); (60, true)];
    [(11, false); (13, false); (18, false); (20, false); (21, false); (24, false); (28, false); (30, false);
     (35, false); (22, true); (24, true); (28, true); (36, true); (40, true); (42, true); (60, true)];
    [(13, false); (18, false); (24, false); (28, false); (33, false); (35, false); (42, false); (45, false);
     (60, false); (22, true); (24, true); (36, true); (40, true); (60, true); (70, true); (84, true)];
    [(13, false); (22, false); (24, false); (28, false); (33, false); (36, false); (40, false); (42, false);
     (45, false); (60, false); (105, false); (24, true); (26, true); (36, true); (40, true); (44, true); (56, true);
     (60, true); (70, true); (84, true)];
    [(22, false); (24, false); (33, false); (36, false); (39, false); (40, false); (45, false); (55, false);
     (60, false); (63, false); (70, false); (84, false); (105, false); (16, true); (26, true); (36, true); (44, true);
     (56, true); (66, true); (84, true); (90, true); (120, true); (140, true)];
    [(17, false); (24, false); (26, false); (33, false); (36, false); (39, false); (40, false); (44, false);
     (45, false); (55, false); (56, false); (60, false); (63, false); (70, false); (84, false); (105, false);
     (16, true); (44, true); (52, true); (56, true); (66, true); (72, true); (84, true); (90, true); (120, true);
     (140, true); (210, true)];
    [(16, false); (17, false); (26, false); (36, false); (39, false); (44, false); (55, false); (56, false);
     (63, false); (65, false); (66, false); (77, false); (84, false); (90, false); (105, false); (120, false);
     (140, false); (16, true); (52, true); (72, true); (78, true); (110, true); (120, true); (126, true); (132, true);
     (140, true); (168, true); (180, true); (210, true)];
    [(16, false); (17, false); (19, false); (39, false); (44, false); (52, false); (56, false); (63, false);
     (65, false); (66, false); (72, false); (77, false); (84, false); (90, false); (120, false); (140, false);
     (165, false); (210, false); (34, true); (48, true); (52, true); (72, true); (78, true); (88, true); (110, true);
     (120, true); (126, true); (132, true); (168, true); (180, true); (420, true)];
    [(16, false); (19, false); (51, false); (52, false); (65, false); (72, false); (77, false); (78, false);
     (91, false); (99, false); (110, false); (120, false); (126, false); (132, false); (140, false); (165, false);
     (168, false); (180, false); (210, false); (34, true); (48, true); (72, true); (88, true); (120, true);
     (130, true); (132, true); (154, true); (156, true); (168, true); (180, true); (220, true); (252, true);
     (280, true); (420, true)];
    [(19, false); (34, false); (48, false); (51, false); (52, false); (72, false); (78, false); (88, false);
     (91, false); (99, false); (110, false); (120, false); (126, false); (132, false); (165, false); (168, false);
     (180, false); (195, false); (231, false); (315, false); (420, false); (38, true); (48, true); (68, true);
     (72, true); (80, true); (88, true); (104, true); (120, true); (130, true); (132, true); (154, true); (156, true);
     (168, true); (180, true); (220, true); (252, true); (280, true); (330, true); (420, true)];
    [(34, false); (48, false); (51, false); (57, false); (72, false); (85, false); (88, false); (91, false);
     (99, false); (117, false); (120, false); (130, false); (132, false); (154, false); (156, false); (165, false);
     (168, false); (180, false); (195, false); (220, false); (231, false); (252, false); (280, false); (315, false);
     (420, false); (38, true); (48, true); (68, true); (80, true); (102, true); (104, true); (156, true); (168, true);
     (182, true); (198, true); (220, true); (252, true); (260, true); (264, true); (280, true); (308, true);
     (330, true); (360, true); (420, true)];
    [(23, false); (38, false); (48, false); (51, false); (57, false); (68, false); (72, false); (80, false);
     (85, false); (88, false); (99, false); (104, false); (117, false); (120, false); (130, false); (132, false);
     (154, false); (156, false); (168, false); (180, false); (195, false); (220, false); (231, false); (252, false);
     (273, false); (280, false); (315, false); (330, false); (385, false); (420, false); (48, true); (68, true);
     (76, true); (80, true); (102, true); (104, true); (112, true); (156, true); (182, true); (198, true); (252, true);
     (260, true); (264, true); (308, true); (360, true); (390, true); (462, true); (630, true); (660, true);
     (840, true)];
    [(23, false); (38, false); (48, false); (57, false); (68, false); (80, false); (85, false); (95, false);
     (102, false); (104, false); (117, false); (119, false); (143, false); (156, false); (168, false); (182, false);
     (195, false); (198, false); (220, false); (231, false); (252, false); (260, false); (264, false); (273, false);
     (280, false); (308, false); (315, false); (330, false); (360, false); (385, false); (420, false); (76, true);
     (112, true); (114, true); (170, true); (204, true); (234, true); (240, true); (260, true); (264, true);
     (308, true); (312, true); (360, true); (364, true); (390, true); (396, true); (440, true); (462, true);
     (504, true); (630, true); (660, true); (840, true)]]%N.
(** For the corners and the edges, which may come back turned. *)
Definition corner_cover : list (N * bool) :=
    [(12, false); (18, false); (21, false); (45, false); (8, true); (30, true); (36, true)]%N.
Definition edge_cover : list (N * bool) :=
    [(16, false); (18, false); (22, false); (24, false); (28, false); (40, false); (42, false); (60, false);
     (70, false); (36, true); (48, true); (56, true); (84, true); (120, true)]%N.
(** For the corners together with one kind of centre corners of the same parity. *)
Definition corner_center_cover : list N :=
    [276; 408; 414; 456; 483; 680; 684; 720; 798; 1008; 1035; 1140; 1428; 1680; 1710; 1716; 1848; 1995; 2142;
     2184; 2520; 2574; 3003; 3060; 3276; 3960; 4680; 5355; 5460; 6435; 8190; 13860]%N.

(** Algs, as numbers of wide moves (Proof_BigSolve.wide_of_code), which need the largest numbers of rounds. *)
Definition longest_codes (n : CubeSize) : list (list nat) :=
  match n with
  | Size2 =>
      [[13; 16; 9]; [5; 8; 10]; [11; 12; 2]; [15; 2; 3]; [0; 8; 10]]
  | Size3 =>
      [[14; 7; 9; 4]; [11; 2; 7; 11; 17]; [14; 5; 15; 8; 1]; [12; 2; 16; 8]; [8; 2; 17; 4; 2]; [5; 11; 16;
       12]; [10; 7; 2; 8; 17; 3]; [13; 15; 2; 15; 8]]
  | Size4 =>
      [[7; 34; 26; 3; 20]; [24; 9; 20; 28; 14; 5; 16]; [17; 28; 3; 9; 18; 26]; [9; 34; 24; 18; 14]; [20; 26;
       23; 11; 2; 6]; [23; 12; 26; 11; 12; 1]; [31; 14; 3; 16; 18; 29]; [35; 1; 14; 21; 11]; [35; 29; 13; 28;
       6; 3]; [4; 24; 20; 13; 32; 9]; [19; 13; 26; 21; 9]; [19; 9; 29; 23; 11; 15]; [10; 30; 25; 23; 15; 5];
       [28; 23; 29; 20; 30; 11; 16]; [21; 17; 1; 9; 26]; [27; 14; 6; 1; 21; 10]; [35; 9; 22; 24; 27]; [4; 8;
       33; 27; 4; 26]; [10; 32; 21; 32; 0; 16]; [5; 29; 35; 26]; [27; 2; 24; 13; 23]; [3; 15; 29; 12; 20; 32];
       [15; 7; 21; 32; 1]; [20; 26; 12; 26; 4; 29; 10]; [12; 1; 35; 4; 29; 23]; [8; 16; 18; 34; 21; 29]; [15;
       23; 6; 1; 29]; [1; 30; 3; 15; 22; 26]; [29; 5; 20; 6; 34]; [33; 31; 5; 19; 29; 0]; [13; 22; 29; 32; 17;
       24]; [27; 1; 33; 10; 12; 21]; [3; 35; 24; 12; 1; 27; 6; 34]; [13; 18; 32; 6; 21]; [19; 13; 22; 24; 32];
       [10; 7; 26; 30; 34]; [29; 30; 34; 7; 3]; [1; 24; 0; 15; 10; 30]; [2; 23; 24; 3; 35; 11]; [12; 4; 29;
       30; 12; 33; 0]; [31; 24; 4; 35; 0; 19]; [23; 25; 10; 8; 29]; [6; 35; 22; 26; 6; 29; 3]; [10; 0; 27; 17;
       26; 12; 32]; [2; 30; 27; 13; 21; 34]; [23; 9; 5; 13; 2; 35; 32]; [25; 27; 16; 33]]
  | Size5 =>
      [[8; 22; 0; 27; 33]; [21; 17; 1; 9; 26]; [5; 10; 30; 35; 27; 30]; [17; 30; 7; 3; 27]; [0; 6; 24; 32;
       34]; [32; 21; 24; 2; 34]; [27; 1; 34; 32]; [35; 0; 25; 9; 23]; [34; 7; 32; 23]; [2; 8; 2; 27; 35; 23];
       [13; 24; 33; 3; 12; 10]; [35; 21; 30; 35; 6; 9]; [35; 3; 6; 22; 27; 31; 19]; [32; 8; 32; 23; 19]; [35;
       14; 27; 24; 35; 8]; [21; 13; 8; 25; 29; 33]; [28; 0; 15; 18; 24]; [29; 23; 16; 6; 30]; [5; 30; 24; 27;
       20; 27]; [21; 15; 28; 26; 32]; [23; 1; 27; 33; 26]; [24; 12; 27; 22; 10; 18]; [24; 19; 35; 10; 21; 32];
       [31; 33; 2; 15; 26]]
  | Size6 =>
      [[47; 9; 13; 33; 49; 41]]
  | Size7 =>
      [[47; 9; 13; 33; 49; 41]]
  end.
