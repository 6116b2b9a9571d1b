(** Search results used by Proof_BigSolve: for each kind of piece of the big cubes a word of
    wide moves that moves three pieces of that kind around and no other piece, and words that
    bring those three to the places 0, 1 and 2, to 0, 1 and 3, and so on.  They were found by a
    search outside Coq and are checked in Proof_BigSolve, so nothing about how they were found
    is trusted.

    A wide move is coded as [18 * depth + index of its move in all_moves]. *)

From Coq Require Import List.
Import ListNotations.

Definition wings_1_cycle : list nat := [6; 0; 8; 18; 2; 6; 2; 8; 0; 20].
Definition wings_1_setups : list (list nat) := [
  [2; 16; 33; 2];
  [27; 1; 16; 23];
  [27; 1; 17];
  [2; 33; 2; 3];
  [1; 25; 12];
  [2; 33; 2; 4];
  [0; 14; 6; 30];
  [1; 19; 14];
  [2; 33; 2];
  [2; 33; 2; 5];
  [27; 1; 16; 22];
  [6; 13; 2; 26];
  [0; 14; 6; 12];
  [19; 24; 16; 7];
  [15; 1; 8; 24];
  [14; 8; 12; 2];
  [27; 1];
  [13; 7; 12];
  [6; 1; 7; 24];
  [27; 1; 16];
  [17; 27; 1];
  [16; 27; 1]].

Definition wings_2_cycle : list nat := [6; 0; 8; 36; 20; 6; 2; 8; 18; 38].
Definition wings_2_setups : list (list nat) := [
  [2; 16; 51; 2];
  [45; 1; 16; 41];
  [45; 1; 17];
  [2; 51; 2; 3];
  [1; 43; 12];
  [2; 51; 2; 4];
  [0; 14; 6; 48];
  [1; 37; 14];
  [2; 51; 2];
  [2; 51; 2; 5];
  [45; 1; 16; 40];
  [6; 13; 2; 44];
  [0; 14; 6; 12];
  [37; 42; 16; 7];
  [15; 1; 8; 42];
  [14; 8; 12; 2];
  [45; 1];
  [13; 7; 12];
  [6; 1; 7; 42];
  [45; 1; 16];
  [17; 45; 1];
  [16; 45; 1]].

Definition center_corners_1_cycle : list nat := [6; 18; 2; 8; 21; 5; 6; 0; 20; 8; 3; 23].
Definition center_corners_1_setups : list (list nat) := [
  [6; 35; 26; 1];
  [23; 30; 29; 1];
  [34; 24; 33];
  [16; 21; 24];
  [16; 24; 35];
  [15; 33; 24];
  [6; 16; 24];
  [7; 16; 24];
  [24; 29; 19];
  [13; 22; 26];
  [16; 24];
  [8; 16; 24];
  [34; 24];
  [6; 34; 24];
  [17; 24; 20];
  [17; 24; 20; 14];
  [6; 23; 7; 30];
  [6; 34; 23; 24];
  [6; 15; 33; 24];
  [6; 23; 25; 30];
  [24; 35; 26; 19];
  [16; 23; 24]].

Definition center_corners_2_cycle : list nat := [6; 36; 20; 8; 39; 23; 6; 18; 38; 8; 21; 41].
Definition center_corners_2_setups : list (list nat) := [
  [6; 53; 44; 1];
  [41; 48; 47; 1];
  [52; 42; 51];
  [16; 39; 42];
  [16; 42; 53];
  [15; 51; 42];
  [6; 16; 42];
  [7; 16; 42];
  [42; 47; 37];
  [13; 40; 44];
  [16; 42];
  [8; 16; 42];
  [52; 42];
  [6; 52; 42];
  [17; 42; 38];
  [17; 42; 38; 14];
  [6; 41; 7; 48];
  [6; 52; 41; 42];
  [6; 15; 51; 42];
  [6; 41; 43; 48];
  [42; 53; 44; 37];
  [16; 41; 42]].

Definition center_wings_l_cycle : list nat := [6; 18; 2; 8; 36; 20; 6; 0; 20; 8; 18; 38].
Definition center_wings_l_setups : list (list nat) := [
  [19; 43; 30; 24];
  [20; 51; 3];
  [25; 32; 24];
  [24; 19; 51];
  [46; 35; 0; 26];
  [19; 8; 51; 26];
  [46; 35; 26];
  [19; 8; 44; 39];
  [19; 33; 26];
  [26; 47; 23; 15];
  [19; 8; 44; 3];
  [7; 41; 24];
  [38; 24; 51];
  [19; 42; 18; 25];
  [19; 7; 44; 3];
  [35; 24; 20];
  [18; 6; 41; 26];
  [19; 44; 21];
  [19; 17; 34; 26];
  [26; 47; 23];
  [19; 44; 3];
  [19; 44; 5; 22]].

Definition center_wings_r_cycle : list nat := [6; 18; 2; 8; 39; 23; 6; 0; 20; 8; 21; 41].
Definition center_wings_r_setups : list (list nat) := [
  [39; 7; 39];
  [7; 15; 19];
  [18; 39; 6; 12];
  [20; 17; 43];
  [18; 16; 38];
  [13; 17; 43];
  [18; 35; 42; 35];
  [17; 43];
  [18; 17; 43];
  [17; 43; 23];
  [39; 8; 26];
  [39; 6; 24];
  [18; 16; 24; 20];
  [39; 7];
  [6; 39; 42; 20];
  [39; 25];
  [18; 6; 20; 29];
  [18; 6; 20; 27];
  [18; 35; 42];
  [40; 14; 31];
  [29; 51; 6];
  [18; 6; 20]].

