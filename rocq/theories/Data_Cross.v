(** Search results used by Proof_Cross: for each face and each of its four cross edges in
    turn, an alg for every place and orientation the edge can have once the edges before it
    are solved, which solves it and keeps those.  Same coding as Data_Solve; the tables are
    checked in Proof_Cross, so nothing about how they were found is trusted. *)

From Coq Require Import List.
From Verif Require Import Data_Solve.
Import ListNotations.

Definition cross_table_R : list (PieceId * list (nat * list nat)) := [
  (EdgeId 2, [
    (0, [8; 2]); (1, [12]); (2, [6; 2]); (3, [7; 12]);
    (4, []); (5, [14; 8; 2]); (6, [13]); (7, [12; 8; 2]);
    (8, [2]); (9, [6; 12]); (10, [3; 13]); (11, [8; 12]);
    (12, [11; 0]); (13, [10; 14]); (14, [9; 0]); (15, [14]);
    (16, [1]); (17, [2; 6; 12]); (18, [4; 13]); (19, [13; 3; 8; 12]);
    (20, [0]); (21, [11; 14]); (22, [5; 13]); (23, [9; 14])]);
  (EdgeId 8, [
    (0, [2; 8; 0]); (1, [7; 17]); (2, [2; 6; 0]); (3, [17]);
    (6, [4; 16]); (7, [16; 5; 6; 17]); (8, [13; 0; 13]); (9, [8; 17]);
    (10, [5; 16]); (11, [6; 17]); (12, [0; 11; 2]); (13, [15]);
    (14, [0; 9; 2]); (15, [10; 15]); (16, []); (17, [15; 8; 5; 16]);
    (18, [16]); (19, [15; 0; 11; 2]); (20, [13; 2; 13]); (21, [9; 15]);
    (22, [3; 16]); (23, [11; 15])]);
  (EdgeId 4, [
    (0, [8]); (1, [2; 12; 0]); (2, [6]); (3, [0; 17; 2]);
    (6, [5; 7]); (7, [12; 8; 14]); (8, []); (9, [2; 14; 0; 8]);
    (10, [7]); (11, [8; 2; 12; 0]); (12, [16; 6; 16]); (13, [0; 15; 2]);
    (14, [1; 9; 1]); (15, [2; 14; 0]); (18, [3; 7]); (19, [17; 6; 15]);
    (20, [10; 4; 7]); (21, [2; 15; 0; 6]); (22, [4; 7]); (23, [14; 5; 12; 8])]);
  (EdgeId 10, [
    (0, [13; 9; 13]); (1, [0; 12; 2]); (2, [16; 11; 16]); (3, [2; 17; 0]);
    (6, [3; 10]); (7, [14; 9; 12]); (10, [4; 10]); (11, [17; 5; 15; 11]);
    (12, [11]); (13, [2; 15; 0]); (14, [9]); (15, [0; 14; 2]);
    (18, [5; 10]); (19, [15; 11; 17]); (20, []); (21, [0; 12; 2; 9]);
    (22, [10]); (23, [9; 0; 14; 2])])].

Definition cross_table_L : list (PieceId * list (nat * list nat)) := [
  (EdgeId 3, [
    (0, [6; 3]); (1, [14]); (2, [8; 3]); (3, [7; 14]);
    (4, [13]); (5, [14; 6; 3]); (6, []); (7, [12; 6; 3]);
    (8, [2; 13]); (9, [6; 14]); (10, [3]); (11, [8; 14]);
    (12, [9; 5]); (13, [10; 12]); (14, [11; 5]); (15, [12]);
    (16, [1; 13]); (17, [13; 2; 6; 14]); (18, [4]); (19, [3; 8; 14]);
    (20, [0; 13]); (21, [11; 12]); (22, [5]); (23, [9; 12])]);
  (EdgeId 9, [
    (0, [3; 6; 5]); (1, [7; 15]); (2, [3; 8; 5]); (3, [15]);
    (4, [1; 16]); (5, [16; 0; 8; 15]); (8, [0; 16]); (9, [8; 15]);
    (10, [13; 5; 13]); (11, [6; 15]); (12, [5; 9; 3]); (13, [17]);
    (14, [5; 11; 3]); (15, [10; 17]); (16, [16]); (17, [17; 5; 9; 3]);
    (18, []); (19, [17; 6; 0; 16]); (20, [2; 16]); (21, [9; 17]);
    (22, [13; 3; 13]); (23, [11; 17])]);
  (EdgeId 5, [
    (0, [6]); (1, [3; 14; 5]); (2, [8]); (3, [5; 15; 3]);
    (4, [0; 7]); (5, [14; 6; 12]); (8, [7]); (9, [8; 5; 15; 3]);
    (10, []); (11, [5; 17; 3; 8]); (12, [4; 9; 4]); (13, [5; 17; 3]);
    (14, [13; 6; 13]); (15, [3; 12; 5]); (16, [2; 7]); (17, [15; 8; 17]);
    (20, [1; 7]); (21, [12; 0; 14; 6]); (22, [10; 1; 7]); (23, [5; 12; 3; 6])]);
  (EdgeId 11, [
    (0, [13; 11; 13]); (1, [5; 14; 3]); (2, [16; 9; 16]); (3, [3; 15; 5]);
    (4, [2; 10]); (5, [12; 11; 14]); (8, [1; 10]); (9, [15; 0; 17; 9]);
    (12, [9]); (13, [3; 17; 5]); (14, [11]); (15, [5; 12; 3]);
    (16, [0; 10]); (17, [17; 9; 15]); (20, [10]); (21, [9; 3; 17; 5]);
    (22, []); (23, [3; 15; 5; 9])])].

Definition cross_table_F : list (PieceId * list (nat * list nat)) := [
  (EdgeId 0, [
    (0, []); (1, [12; 0; 6]); (2, [7]); (3, [6; 2; 14]);
    (4, [0; 6]); (5, [14]); (6, [5; 8]); (7, [12]);
    (8, [6]); (9, [2; 14]); (10, [8]); (11, [3; 12]);
    (12, [10; 13]); (13, [13; 11; 0; 14]); (14, [13]); (15, [14; 0; 6]);
    (16, [2; 6]); (17, [1; 14]); (18, [3; 8]); (19, [4; 12]);
    (20, [11; 13]); (21, [0; 14]); (22, [9; 13]); (23, [5; 12])]);
  (EdgeId 7, [
    (2, [16; 10]); (3, [10; 17; 0; 11]); (4, [2; 11]); (5, [8; 12; 6]);
    (6, [3; 9]); (7, [8; 14; 6]); (8, [1; 11]); (9, [14; 2; 12]);
    (10, [4; 9]); (11, [12; 3; 14]); (12, [10]); (13, [9; 12; 5; 14]);
    (14, []); (15, [12; 3; 14; 9]); (16, [0; 11]); (17, [17; 10]);
    (18, [5; 9]); (19, [15; 10]); (20, [11]); (21, [14; 0; 12]);
    (22, [9]); (23, [12; 5; 14])]);
  (EdgeId 2, [
    (2, [6; 2; 8]); (3, [17; 1]); (4, []); (5, [14; 8; 12; 2]);
    (6, [4; 16; 1]); (7, [14; 9; 12; 0]); (8, [2]); (9, [14; 6; 12]);
    (10, [13; 3; 13]); (11, [14; 8; 12]); (12, [11; 0; 9]); (13, [15; 1]);
    (16, [1]); (17, [2; 14; 6; 12]); (18, [16; 1]); (19, [9; 15; 11; 0]);
    (20, [0]); (21, [12; 11; 14]); (22, [13; 5; 13]); (23, [12; 9; 14])]);
  (EdgeId 3, [
    (2, [8; 3; 6]); (3, [15; 4]); (6, []); (7, [14; 11; 12; 5]);
    (8, [7; 3; 7]); (9, [12; 6; 14]); (10, [3]); (11, [12; 8; 14]);
    (12, [9; 5; 11]); (13, [17; 4]); (16, [16; 4]); (17, [11; 17; 9; 5]);
    (18, [4]); (19, [5; 14; 9; 12]); (20, [10; 5; 10]); (21, [14; 11; 12]);
    (22, [5]); (23, [14; 9; 12])])].

Definition cross_table_B : list (PieceId * list (nat * list nat)) := [
  (EdgeId 1, [
    (0, [7]); (1, [8; 0; 15]); (2, []); (3, [17; 2; 8]);
    (4, [0; 8]); (5, [1; 15]); (6, [5; 6]); (7, [4; 17]);
    (8, [8]); (9, [0; 15]); (10, [6]); (11, [5; 17]);
    (12, [16]); (13, [15; 2; 8]); (14, [10; 16]); (15, [16; 9; 2; 15]);
    (16, [2; 8]); (17, [15]); (18, [3; 6]); (19, [17]);
    (20, [9; 16]); (21, [2; 15]); (22, [11; 16]); (23, [3; 17])]);
  (EdgeId 6, [
    (0, [13; 10]); (1, [10; 12; 2; 9]); (4, [2; 9]); (5, [12; 10]);
    (6, [3; 11]); (7, [14; 10]); (8, [1; 9]); (9, [15; 0; 17]);
    (10, [4; 11]); (11, [17; 5; 15]); (12, []); (13, [17; 5; 15; 11]);
    (14, [10]); (15, [11; 17; 3; 15]); (16, [0; 9]); (17, [6; 17; 8]);
    (18, [5; 11]); (19, [6; 15; 8]); (20, [9]); (21, [15; 2; 17]);
    (22, [11]); (23, [17; 3; 15])]);
  (EdgeId 8, [
    (0, [8; 0; 6]); (1, [12; 1]); (4, [1]); (5, [0; 15; 8; 17]);
    (6, [13; 1]); (7, [11; 14; 9; 2]); (8, [0]); (9, [15; 8; 17]);
    (10, [16; 5; 16]); (11, [15; 6; 17]); (14, [9; 2; 11]); (15, [14; 1]);
    (16, []); (17, [15; 6; 17; 0]); (18, [4; 13; 1]); (19, [15; 11; 17; 2]);
    (20, [2]); (21, [17; 9; 15]); (22, [16; 3; 16]); (23, [17; 11; 15])]);
  (EdgeId 9, [
    (0, [6; 5; 8]); (1, [14; 4]); (4, [13; 4]); (5, [8; 14; 6; 5]);
    (6, [4]); (7, [5; 17; 6; 15]); (8, [7; 5; 7]); (9, [17; 8; 15]);
    (10, [5]); (11, [17; 6; 15]); (14, [11; 3; 9]); (15, [12; 4]);
    (18, []); (19, [17; 8; 15; 5]); (20, [10; 3; 10]); (21, [15; 9; 17]);
    (22, [3]); (23, [15; 11; 17])])].

Definition cross_table_U : list (PieceId * list (nat * list nat)) := [
  (EdgeId 0, [
    (0, []); (1, [12; 0; 6]); (2, [7]); (3, [6; 2; 14]);
    (4, [0; 6]); (5, [14]); (6, [5; 8]); (7, [12]);
    (8, [6]); (9, [2; 14]); (10, [8]); (11, [3; 12]);
    (12, [10; 13]); (13, [13; 11; 0; 14]); (14, [13]); (15, [14; 0; 6]);
    (16, [2; 6]); (17, [1; 14]); (18, [3; 8]); (19, [4; 12]);
    (20, [11; 13]); (21, [0; 14]); (22, [9; 13]); (23, [5; 12])]);
  (EdgeId 1, [
    (2, []); (3, [15; 8; 3; 6]); (4, [6; 0; 8]); (5, [1; 15]);
    (6, [8; 5; 6]); (7, [4; 17]); (8, [12; 8; 14]); (9, [0; 15]);
    (10, [12; 6; 14]); (11, [5; 17]); (12, [16]); (13, [17; 8; 3; 6]);
    (14, [10; 16]); (15, [16; 9; 2; 15]); (16, [6; 2; 8]); (17, [15]);
    (18, [8; 3; 6]); (19, [17]); (20, [9; 16]); (21, [2; 15]);
    (22, [11; 16]); (23, [3; 17])]);
  (EdgeId 4, [
    (4, [0]); (5, [6; 14; 8]); (6, [7; 5; 7]); (7, [6; 12; 8]);
    (8, []); (9, [6; 12; 8; 0]); (10, [4; 10; 1]); (11, [6; 17; 8; 2]);
    (12, [11; 1]); (13, [15; 2; 17]); (14, [9; 1]); (15, [14; 0; 12]);
    (16, [2]); (17, [8; 15; 6]); (18, [7; 3; 7]); (19, [8; 17; 6]);
    (20, [1]); (21, [0; 6; 14; 8]); (22, [10; 1]); (23, [12; 9; 14; 0])]);
  (EdgeId 5, [
    (4, [7; 0; 7]); (5, [8; 14; 6]); (6, [5]); (7, [8; 12; 6]);
    (10, []); (11, [8; 14; 6; 5]); (12, [9; 4]); (13, [17; 3; 15]);
    (14, [11; 4]); (15, [12; 5; 14]); (16, [7; 2; 7]); (17, [6; 15; 8]);
    (18, [3]); (19, [6; 17; 8]); (20, [10; 4]); (21, [15; 9; 17; 3]);
    (22, [4]); (23, [5; 8; 12; 6])])].

Definition cross_table_D : list (PieceId * list (nat * list nat)) := [
  (EdgeId 6, [
    (0, [13; 10]); (1, [10; 12; 2; 9]); (2, [16]); (3, [17; 0; 9]);
    (4, [2; 9]); (5, [12; 10]); (6, [3; 11]); (7, [14; 10]);
    (8, [1; 9]); (9, [0; 17]); (10, [4; 11]); (11, [5; 15]);
    (12, []); (13, [15; 0; 9]); (14, [10]); (15, [9; 2; 17]);
    (16, [0; 9]); (17, [17]); (18, [5; 11]); (19, [15]);
    (20, [9]); (21, [2; 17]); (22, [11]); (23, [3; 15])]);
  (EdgeId 7, [
    (0, [13]); (1, [12; 9; 2; 11]); (2, [7; 13]); (3, [13; 6; 2; 12]);
    (4, [9; 2; 11]); (5, [12]); (6, [11; 3; 9]); (7, [14]);
    (8, [6; 13]); (9, [2; 12]); (10, [8; 13]); (11, [3; 14]);
    (14, []); (15, [14; 0; 6; 13]); (16, [9; 0; 11]); (17, [1; 12]);
    (18, [11; 5; 9]); (19, [4; 14]); (20, [15; 11; 17]); (21, [0; 12]);
    (22, [15; 9; 17]); (23, [5; 14])]);
  (EdgeId 10, [
    (0, [8; 1]); (1, [12; 2; 14]); (2, [6; 1]); (3, [17; 0; 15]);
    (4, [2]); (5, [11; 12; 9]); (6, [13; 2; 13]); (7, [11; 14; 9]);
    (8, [1]); (9, [2; 11; 12; 9]); (10, [7; 1]); (11, [15; 6; 17; 0]);
    (16, [0]); (17, [9; 17; 11]); (18, [16; 0; 16]); (19, [9; 15; 11]);
    (20, []); (21, [11; 14; 9; 2]); (22, [4; 7; 1]); (23, [11; 15; 9; 0])]);
  (EdgeId 11, [
    (0, [6; 4]); (1, [14; 3; 12]); (2, [8; 4]); (3, [15; 5; 17]);
    (4, [10; 2; 10]); (5, [9; 12; 11]); (6, [3]); (7, [9; 14; 11]);
    (8, [7; 4]); (9, [17; 8; 15; 5]); (10, [4]); (11, [5; 11; 15; 9]);
    (16, [10; 0; 10]); (17, [11; 17; 9]); (18, [5]); (19, [11; 15; 9]);
    (22, []); (23, [11; 17; 9; 5])])].
