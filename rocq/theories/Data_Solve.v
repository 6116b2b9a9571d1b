(** Search results used by Proof_Solve: for each of seventeen pieces, an alg for every place
    and orientation the piece can have once the pieces before it are solved, which solves
    it and keeps those.  The tables were produced by a search outside Coq and are checked
    in Proof_Solve, so nothing about how they were found is trusted.

    A piece state is coded as [3 * place + axis] (corners) or [2 * place + flip] (edges);
    a move is its index in [all_moves]. *)

From Coq Require Import List NArith.
Import ListNotations.

Inductive PieceId := CornerId (i : nat) | EdgeId (i : nat).

Definition solve_table : list (PieceId * list (nat * list nat)) := [
  (EdgeId 0, [
    (0, []); (1, [12; 0; 6]); (2, [7]);
    (3, [6; 2; 14]); (4, [0; 6]); (5, [14]);
    (6, [5; 8]); (7, [12]); (8, [6]);
    (9, [2; 14]); (10, [8]); (11, [3; 12]);
    (12, [10; 13]); (13, [13; 11; 0; 14]); (14, [13]);
    (15, [14; 0; 6]); (16, [2; 6]); (17, [1; 14]);
    (18, [3; 8]); (19, [4; 12]); (20, [11; 13]);
    (21, [0; 14]); (22, [9; 13]); (23, [5; 12])]);
  (EdgeId 1, [
    (2, []); (3, [15; 8; 3; 6]); (4, [6; 0; 8]);
    (5, [1; 15]); (6, [8; 5; 6]); (7, [4; 17]);
    (8, [12; 8; 14]); (9, [0; 15]); (10, [12; 6; 14]);
    (11, [5; 17]); (12, [16]); (13, [17; 8; 3; 6]);
    (14, [10; 16]); (15, [16; 9; 2; 15]); (16, [6; 2; 8]);
    (17, [15]); (18, [8; 3; 6]); (19, [17]);
    (20, [9; 16]); (21, [2; 15]); (22, [11; 16]);
    (23, [3; 17])]);
  (EdgeId 4, [
    (4, [0]); (5, [6; 14; 8]); (6, [7; 5; 7]);
    (7, [6; 12; 8]); (8, []); (9, [6; 12; 8; 0]);
    (10, [4; 10; 1]); (11, [6; 17; 8; 2]); (12, [11; 1]);
    (13, [15; 2; 17]); (14, [9; 1]); (15, [14; 0; 12]);
    (16, [2]); (17, [8; 15; 6]); (18, [7; 3; 7]);
    (19, [8; 17; 6]); (20, [1]); (21, [0; 6; 14; 8]);
    (22, [10; 1]); (23, [12; 9; 14; 0])]);
  (EdgeId 5, [
    (4, [7; 0; 7]); (5, [8; 14; 6]); (6, [5]);
    (7, [8; 12; 6]); (10, []); (11, [8; 14; 6; 5]);
    (12, [9; 4]); (13, [17; 3; 15]); (14, [11; 4]);
    (15, [12; 5; 14]); (16, [7; 2; 7]); (17, [6; 15; 8]);
    (18, [3]); (19, [6; 17; 8]); (20, [10; 4]);
    (21, [15; 9; 17; 3]); (22, [4]); (23, [5; 8; 12; 6])]);
  (CornerId 0, [
    (0, [2; 10; 2; 15; 1; 17]); (1, []); (2, [15; 1; 17; 0; 10; 0]);
    (12, [16; 1; 16; 0; 11; 0]); (13, [12; 17; 9; 15; 11; 14]); (14, [12; 17; 11; 15; 14]);
    (6, [2; 11; 0]); (7, [13; 9; 13; 11; 13]); (8, [12; 9; 14]);
    (18, [8; 0; 9; 2; 6]); (19, [1; 13; 1; 13]); (20, [12; 11; 14]);
    (3, [2; 3; 9; 5; 0]); (4, [2; 3; 11; 5; 9; 0]); (5, [4; 13; 4; 14; 9; 14]);
    (15, [12; 5; 10; 14; 3]); (16, [1; 16; 1; 16]); (17, [15; 2; 10; 17; 0]);
    (9, [2; 9; 0]); (10, [13; 1; 13; 1]); (11, [7; 15; 11; 17; 7]);
    (21, [12; 10; 14]); (22, [12; 5; 9; 14; 3]); (23, [2; 10; 0])]);
  (EdgeId 2, [
    (4, []); (5, [12; 0; 9; 0; 12; 1; 14]); (6, [8; 1; 11; 6; 13]);
    (7, [5; 8; 12; 6; 3]); (12, [16; 6; 2; 8; 16]); (13, [7; 12; 10; 14; 7]);
    (14, [1; 9; 2; 11; 1]); (15, [14; 4; 14; 4; 12]); (16, [13; 8; 9; 1; 6]);
    (17, [12; 0; 11; 2; 14]); (18, [4; 9; 8; 13; 6]); (19, [1; 15; 0; 11; 0; 17]);
    (20, [5; 7; 0; 7; 3]); (21, [7; 12; 11; 14; 7]); (22, [5; 8; 13; 6; 3]);
    (23, [7; 12; 9; 14; 7])]);
  (CornerId 4, [
    (12, [17; 9; 4; 17; 4; 16]); (13, []); (14, [16; 4; 15; 4; 11; 15]);
    (6, [8; 15; 10; 17; 6]); (7, [17; 10; 4; 17; 4; 16]); (8, [17; 9; 15]);
    (18, [0; 9; 2]); (19, [17; 5; 10; 3; 15]); (20, [17; 11; 15]);
    (3, [17; 3; 10; 5; 15]); (4, [16; 4; 16; 4]); (5, [0; 14; 10; 12; 2]);
    (15, [0; 5; 11; 3; 2]); (16, [0; 5; 9; 3; 11; 2]); (17, [4; 16; 4; 15; 11; 15]);
    (9, [17; 10; 15]); (10, [0; 14; 0; 12; 1]); (11, [0; 10; 2]);
    (21, [0; 11; 2]); (22, [16; 2; 16; 0]); (23, [8; 15; 9; 17; 6])]);
  (EdgeId 8, [
    (6, [4; 11; 6; 16; 8]); (7, [1; 14; 2; 9; 12; 2]); (12, [7; 0; 11; 2; 7]);
    (13, [13; 7; 15; 7; 13]); (14, [0; 15; 9; 17; 2]); (15, [13; 7; 17; 7; 13]);
    (16, []); (17, [13; 7; 15; 6; 0; 6; 13]); (18, [6; 16; 8; 9; 4]);
    (19, [3; 6; 17; 8; 5]); (20, [13; 8; 2; 6; 13]); (21, [16; 9; 17; 11; 16]);
    (22, [3; 6; 16; 8; 5]); (23, [6; 17; 11; 15; 8])]);
  (CornerId 1, [
    (6, [3; 11; 5]); (7, [3; 12; 3; 14; 9; 5]); (8, [6; 5; 10; 3; 8]);
    (18, [14; 10; 12]); (19, [14; 0; 14; 2; 13]); (20, [3; 10; 5]);
    (3, [3; 11; 12; 4; 14; 5]); (4, []); (5, [3; 12; 4; 14; 9; 5]);
    (15, [17; 4; 15; 5; 9; 5]); (16, [14; 15; 11; 17; 9; 12]); (17, [14; 15; 9; 17; 12]);
    (9, [3; 9; 5]); (10, [3; 12; 4; 14; 5]); (11, [14; 11; 12]);
    (21, [6; 5; 11; 3; 8]); (22, [4; 12; 4; 14]); (23, [14; 9; 12])]);
  (EdgeId 3, [
    (6, []); (7, [8; 14; 10; 12; 3; 9; 5; 6]); (12, [8; 3; 9; 5; 6]);
    (13, [8; 14; 10; 12; 6]); (14, [8; 3; 11; 5; 6]); (15, [8; 12; 5; 14; 3; 6]);
    (18, [5; 17; 4; 15; 3]); (19, [14; 5; 9; 3; 12]); (20, [8; 3; 10; 5; 6]);
    (21, [8; 14; 11; 12; 6]); (22, [5; 17; 5; 15; 3]); (23, [8; 14; 9; 12; 6])]);
  (CornerId 5, [
    (6, [15; 10; 17]); (7, [15; 2; 15; 0; 16]); (8, [5; 10; 3]);
    (18, [5; 9; 3]); (19, [5; 11; 12; 5; 14; 4]); (20, [5; 10; 14; 10; 12; 3]);
    (15, [5; 9; 14; 10; 12; 3]); (16, []); (17, [5; 14; 10; 12; 11; 3]);
    (9, [5; 14; 9; 12; 11; 3]); (10, [15; 10; 16; 3; 15; 5]); (11, [15; 11; 17]);
    (21, [5; 11; 3]); (22, [5; 14; 10; 12; 3]); (23, [15; 9; 17])]);
  (EdgeId 9, [
    (12, [15; 10; 17; 10; 5; 11; 3]); (13, [3; 10; 12; 5; 14; 10; 5]); (14, [15; 11; 17; 3; 17; 5; 15]);
    (15, [17; 10; 2; 16; 0; 10; 15]); (18, []); (19, [5; 9; 5; 10; 17; 4; 15; 10; 4]);
    (20, [0; 9; 1; 8; 16; 6; 0]); (21, [5; 9; 3; 10; 15; 10; 17]); (22, [3; 10; 12; 3; 14; 10; 5]);
    (23, [5; 10; 3; 10; 15; 9; 17])]);
  (CornerId 2, [
    (6, [9; 5; 14; 11; 12; 9; 3]); (7, []); (8, [5; 11; 14; 9; 12; 3; 11]);
    (18, [10; 14; 2; 11; 0; 9; 12]); (19, [11]); (20, [3; 9; 15; 11; 17; 5]);
    (9, [17; 11; 5; 9; 3; 15]); (10, [9]); (11, [5; 11; 14; 9; 12; 3; 10]);
    (21, [0; 12; 5; 12; 3; 13; 2]); (22, [10]); (23, [5; 9; 0; 11; 3; 9; 2])]);
  (CornerId 6, [
    (18, [17; 3; 17; 5; 16; 0; 10; 2]); (19, []); (20, [0; 10; 2; 16; 3; 15; 5; 15]);
    (9, [9; 3; 15; 9; 17; 11; 5]); (10, [3; 9; 15; 11; 17; 5; 11]); (11, [17; 5; 14; 3; 15; 5; 12; 3]);
    (21, [5; 14; 3; 17; 5; 12; 3; 15]); (22, [14; 0; 12; 2; 11; 2; 9; 0]); (23, [9; 15; 9; 17; 11; 17; 3; 15; 5])]);
  (CornerId 3, [
    (9, [10; 15; 1; 16; 9; 2; 9; 0; 10; 16; 1; 17]); (10, []); (11, [15; 1; 16; 10; 2; 11; 0; 11; 16; 1; 17; 10]);
    (21, [11; 16; 8; 12; 3; 14; 6; 16; 0; 11; 2]); (22, [12; 5; 12; 4; 17; 3; 15; 4; 13; 9]); (23, [17; 3; 17; 7; 12; 2; 14; 7; 16; 5])]);
  (EdgeId 6, [
    (12, []); (13, [17; 8; 11; 4; 10; 3; 11; 5; 11; 4; 6; 15; 9]); (14, [0; 7; 4; 15; 10; 4; 7; 12; 0]);
    (15, [0; 5; 9; 2; 11; 3; 2; 15; 0; 17]); (20, [1; 9; 14; 15; 1; 17; 12; 9; 1]); (21, [17; 5; 16; 7; 13; 2; 13; 7; 17]);
    (22, [4; 11; 12; 17; 4; 15; 14; 11; 4]); (23, [15; 7; 13; 0; 13; 7; 16; 3; 15])]);
  (EdgeId 7, [
    (14, []); (15, [14; 11; 13; 6; 3; 9; 5; 11; 8; 13; 10; 12; 11]); (20, [13; 11; 0; 5; 13; 3; 2; 11; 13]);
    (21, [12; 3; 13; 7; 16; 0; 16; 7; 12]); (22, [13; 9; 0; 5; 13; 3; 2; 9; 13]); (23, [14; 7; 16; 2; 16; 7; 13; 5; 14])])].

(** Flips the edges 10 and 11 and nothing else. *)
Definition double_flip_code : list nat := [2; 8; 9; 17; 1; 10; 1; 15; 11; 6; 0; 13; 10; 13].
