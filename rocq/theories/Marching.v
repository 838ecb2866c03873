(** Marching cubes: triangle table, classification of a cube, interpolation of
    edge vertices and triangle emission. Definitions only. *)
From Coq Require Import ZArith List Bool.
From Verif Require Import F32 Types Voxel Layer Ray.
Import ListNotations.
Open Scope Z_scope.

(** mesh/marching_cubes.cc:29-284 [kTriangleTable[256][16]] *)
Definition kTriangleTable : list (list Z) := [
  [(-1); (-1); (-1); (-1); (-1); (-1); (-1); (-1); (-1); (-1); (-1); (-1); (-1); (-1); (-1); (-1)];
  [0; 8; 3; (-1); (-1); (-1); (-1); (-1); (-1); (-1); (-1); (-1); (-1); (-1); (-1); (-1)];
  [0; 1; 9; (-1); (-1); (-1); (-1); (-1); (-1); (-1); (-1); (-1); (-1); (-1); (-1); (-1)];
  [1; 8; 3; 9; 8; 1; (-1); (-1); (-1); (-1); (-1); (-1); (-1); (-1); (-1); (-1)];
  [1; 2; 10; (-1); (-1); (-1); (-1); (-1); (-1); (-1); (-1); (-1); (-1); (-1); (-1); (-1)];
  [0; 8; 3; 1; 2; 10; (-1); (-1); (-1); (-1); (-1); (-1); (-1); (-1); (-1); (-1)];
  [9; 2; 10; 0; 2; 9; (-1); (-1); (-1); (-1); (-1); (-1); (-1); (-1); (-1); (-1)];
  [2; 8; 3; 2; 10; 8; 10; 9; 8; (-1); (-1); (-1); (-1); (-1); (-1); (-1)];
  [3; 11; 2; (-1); (-1); (-1); (-1); (-1); (-1); (-1); (-1); (-1); (-1); (-1); (-1); (-1)];
  [0; 11; 2; 8; 11; 0; (-1); (-1); (-1); (-1); (-1); (-1); (-1); (-1); (-1); (-1)];
  [1; 9; 0; 2; 3; 11; (-1); (-1); (-1); (-1); (-1); (-1); (-1); (-1); (-1); (-1)];
  [1; 11; 2; 1; 9; 11; 9; 8; 11; (-1); (-1); (-1); (-1); (-1); (-1); (-1)];
  [3; 10; 1; 11; 10; 3; (-1); (-1); (-1); (-1); (-1); (-1); (-1); (-1); (-1); (-1)];
  [0; 10; 1; 0; 8; 10; 8; 11; 10; (-1); (-1); (-1); (-1); (-1); (-1); (-1)];
  [3; 9; 0; 3; 11; 9; 11; 10; 9; (-1); (-1); (-1); (-1); (-1); (-1); (-1)];
  [9; 8; 10; 10; 8; 11; (-1); (-1); (-1); (-1); (-1); (-1); (-1); (-1); (-1); (-1)];
  [4; 7; 8; (-1); (-1); (-1); (-1); (-1); (-1); (-1); (-1); (-1); (-1); (-1); (-1); (-1)];
  [4; 3; 0; 7; 3; 4; (-1); (-1); (-1); (-1); (-1); (-1); (-1); (-1); (-1); (-1)];
  [0; 1; 9; 8; 4; 7; (-1); (-1); (-1); (-1); (-1); (-1); (-1); (-1); (-1); (-1)];
  [4; 1; 9; 4; 7; 1; 7; 3; 1; (-1); (-1); (-1); (-1); (-1); (-1); (-1)];
  [1; 2; 10; 8; 4; 7; (-1); (-1); (-1); (-1); (-1); (-1); (-1); (-1); (-1); (-1)];
  [3; 4; 7; 3; 0; 4; 1; 2; 10; (-1); (-1); (-1); (-1); (-1); (-1); (-1)];
  [9; 2; 10; 9; 0; 2; 8; 4; 7; (-1); (-1); (-1); (-1); (-1); (-1); (-1)];
  [2; 10; 9; 2; 9; 7; 2; 7; 3; 7; 9; 4; (-1); (-1); (-1); (-1)];
  [8; 4; 7; 3; 11; 2; (-1); (-1); (-1); (-1); (-1); (-1); (-1); (-1); (-1); (-1)];
  [11; 4; 7; 11; 2; 4; 2; 0; 4; (-1); (-1); (-1); (-1); (-1); (-1); (-1)];
  [9; 0; 1; 8; 4; 7; 2; 3; 11; (-1); (-1); (-1); (-1); (-1); (-1); (-1)];
  [4; 7; 11; 9; 4; 11; 9; 11; 2; 9; 2; 1; (-1); (-1); (-1); (-1)];
  [3; 10; 1; 3; 11; 10; 7; 8; 4; (-1); (-1); (-1); (-1); (-1); (-1); (-1)];
  [1; 11; 10; 1; 4; 11; 1; 0; 4; 7; 11; 4; (-1); (-1); (-1); (-1)];
  [4; 7; 8; 9; 0; 11; 9; 11; 10; 11; 0; 3; (-1); (-1); (-1); (-1)];
  [4; 7; 11; 4; 11; 9; 9; 11; 10; (-1); (-1); (-1); (-1); (-1); (-1); (-1)];
  [9; 5; 4; (-1); (-1); (-1); (-1); (-1); (-1); (-1); (-1); (-1); (-1); (-1); (-1); (-1)];
  [9; 5; 4; 0; 8; 3; (-1); (-1); (-1); (-1); (-1); (-1); (-1); (-1); (-1); (-1)];
  [0; 5; 4; 1; 5; 0; (-1); (-1); (-1); (-1); (-1); (-1); (-1); (-1); (-1); (-1)];
  [8; 5; 4; 8; 3; 5; 3; 1; 5; (-1); (-1); (-1); (-1); (-1); (-1); (-1)];
  [1; 2; 10; 9; 5; 4; (-1); (-1); (-1); (-1); (-1); (-1); (-1); (-1); (-1); (-1)];
  [3; 0; 8; 1; 2; 10; 4; 9; 5; (-1); (-1); (-1); (-1); (-1); (-1); (-1)];
  [5; 2; 10; 5; 4; 2; 4; 0; 2; (-1); (-1); (-1); (-1); (-1); (-1); (-1)];
  [2; 10; 5; 3; 2; 5; 3; 5; 4; 3; 4; 8; (-1); (-1); (-1); (-1)];
  [9; 5; 4; 2; 3; 11; (-1); (-1); (-1); (-1); (-1); (-1); (-1); (-1); (-1); (-1)];
  [0; 11; 2; 0; 8; 11; 4; 9; 5; (-1); (-1); (-1); (-1); (-1); (-1); (-1)];
  [0; 5; 4; 0; 1; 5; 2; 3; 11; (-1); (-1); (-1); (-1); (-1); (-1); (-1)];
  [2; 1; 5; 2; 5; 8; 2; 8; 11; 4; 8; 5; (-1); (-1); (-1); (-1)];
  [10; 3; 11; 10; 1; 3; 9; 5; 4; (-1); (-1); (-1); (-1); (-1); (-1); (-1)];
  [4; 9; 5; 0; 8; 1; 8; 10; 1; 8; 11; 10; (-1); (-1); (-1); (-1)];
  [5; 4; 0; 5; 0; 11; 5; 11; 10; 11; 0; 3; (-1); (-1); (-1); (-1)];
  [5; 4; 8; 5; 8; 10; 10; 8; 11; (-1); (-1); (-1); (-1); (-1); (-1); (-1)];
  [9; 7; 8; 5; 7; 9; (-1); (-1); (-1); (-1); (-1); (-1); (-1); (-1); (-1); (-1)];
  [9; 3; 0; 9; 5; 3; 5; 7; 3; (-1); (-1); (-1); (-1); (-1); (-1); (-1)];
  [0; 7; 8; 0; 1; 7; 1; 5; 7; (-1); (-1); (-1); (-1); (-1); (-1); (-1)];
  [1; 5; 3; 3; 5; 7; (-1); (-1); (-1); (-1); (-1); (-1); (-1); (-1); (-1); (-1)];
  [9; 7; 8; 9; 5; 7; 10; 1; 2; (-1); (-1); (-1); (-1); (-1); (-1); (-1)];
  [10; 1; 2; 9; 5; 0; 5; 3; 0; 5; 7; 3; (-1); (-1); (-1); (-1)];
  [8; 0; 2; 8; 2; 5; 8; 5; 7; 10; 5; 2; (-1); (-1); (-1); (-1)];
  [2; 10; 5; 2; 5; 3; 3; 5; 7; (-1); (-1); (-1); (-1); (-1); (-1); (-1)];
  [7; 9; 5; 7; 8; 9; 3; 11; 2; (-1); (-1); (-1); (-1); (-1); (-1); (-1)];
  [9; 5; 7; 9; 7; 2; 9; 2; 0; 2; 7; 11; (-1); (-1); (-1); (-1)];
  [2; 3; 11; 0; 1; 8; 1; 7; 8; 1; 5; 7; (-1); (-1); (-1); (-1)];
  [11; 2; 1; 11; 1; 7; 7; 1; 5; (-1); (-1); (-1); (-1); (-1); (-1); (-1)];
  [9; 5; 8; 8; 5; 7; 10; 1; 3; 10; 3; 11; (-1); (-1); (-1); (-1)];
  [5; 7; 0; 5; 0; 9; 7; 11; 0; 1; 0; 10; 11; 10; 0; (-1)];
  [11; 10; 0; 11; 0; 3; 10; 5; 0; 8; 0; 7; 5; 7; 0; (-1)];
  [11; 10; 5; 7; 11; 5; (-1); (-1); (-1); (-1); (-1); (-1); (-1); (-1); (-1); (-1)];
  [10; 6; 5; (-1); (-1); (-1); (-1); (-1); (-1); (-1); (-1); (-1); (-1); (-1); (-1); (-1)];
  [0; 8; 3; 5; 10; 6; (-1); (-1); (-1); (-1); (-1); (-1); (-1); (-1); (-1); (-1)];
  [9; 0; 1; 5; 10; 6; (-1); (-1); (-1); (-1); (-1); (-1); (-1); (-1); (-1); (-1)];
  [1; 8; 3; 1; 9; 8; 5; 10; 6; (-1); (-1); (-1); (-1); (-1); (-1); (-1)];
  [1; 6; 5; 2; 6; 1; (-1); (-1); (-1); (-1); (-1); (-1); (-1); (-1); (-1); (-1)];
  [1; 6; 5; 1; 2; 6; 3; 0; 8; (-1); (-1); (-1); (-1); (-1); (-1); (-1)];
  [9; 6; 5; 9; 0; 6; 0; 2; 6; (-1); (-1); (-1); (-1); (-1); (-1); (-1)];
  [5; 9; 8; 5; 8; 2; 5; 2; 6; 3; 2; 8; (-1); (-1); (-1); (-1)];
  [2; 3; 11; 10; 6; 5; (-1); (-1); (-1); (-1); (-1); (-1); (-1); (-1); (-1); (-1)];
  [11; 0; 8; 11; 2; 0; 10; 6; 5; (-1); (-1); (-1); (-1); (-1); (-1); (-1)];
  [0; 1; 9; 2; 3; 11; 5; 10; 6; (-1); (-1); (-1); (-1); (-1); (-1); (-1)];
  [5; 10; 6; 1; 9; 2; 9; 11; 2; 9; 8; 11; (-1); (-1); (-1); (-1)];
  [6; 3; 11; 6; 5; 3; 5; 1; 3; (-1); (-1); (-1); (-1); (-1); (-1); (-1)];
  [0; 8; 11; 0; 11; 5; 0; 5; 1; 5; 11; 6; (-1); (-1); (-1); (-1)];
  [3; 11; 6; 0; 3; 6; 0; 6; 5; 0; 5; 9; (-1); (-1); (-1); (-1)];
  [6; 5; 9; 6; 9; 11; 11; 9; 8; (-1); (-1); (-1); (-1); (-1); (-1); (-1)];
  [5; 10; 6; 4; 7; 8; (-1); (-1); (-1); (-1); (-1); (-1); (-1); (-1); (-1); (-1)];
  [4; 3; 0; 4; 7; 3; 6; 5; 10; (-1); (-1); (-1); (-1); (-1); (-1); (-1)];
  [1; 9; 0; 5; 10; 6; 8; 4; 7; (-1); (-1); (-1); (-1); (-1); (-1); (-1)];
  [10; 6; 5; 1; 9; 7; 1; 7; 3; 7; 9; 4; (-1); (-1); (-1); (-1)];
  [6; 1; 2; 6; 5; 1; 4; 7; 8; (-1); (-1); (-1); (-1); (-1); (-1); (-1)];
  [1; 2; 5; 5; 2; 6; 3; 0; 4; 3; 4; 7; (-1); (-1); (-1); (-1)];
  [8; 4; 7; 9; 0; 5; 0; 6; 5; 0; 2; 6; (-1); (-1); (-1); (-1)];
  [7; 3; 9; 7; 9; 4; 3; 2; 9; 5; 9; 6; 2; 6; 9; (-1)];
  [3; 11; 2; 7; 8; 4; 10; 6; 5; (-1); (-1); (-1); (-1); (-1); (-1); (-1)];
  [5; 10; 6; 4; 7; 2; 4; 2; 0; 2; 7; 11; (-1); (-1); (-1); (-1)];
  [0; 1; 9; 4; 7; 8; 2; 3; 11; 5; 10; 6; (-1); (-1); (-1); (-1)];
  [9; 2; 1; 9; 11; 2; 9; 4; 11; 7; 11; 4; 5; 10; 6; (-1)];
  [8; 4; 7; 3; 11; 5; 3; 5; 1; 5; 11; 6; (-1); (-1); (-1); (-1)];
  [5; 1; 11; 5; 11; 6; 1; 0; 11; 7; 11; 4; 0; 4; 11; (-1)];
  [0; 5; 9; 0; 6; 5; 0; 3; 6; 11; 6; 3; 8; 4; 7; (-1)];
  [6; 5; 9; 6; 9; 11; 4; 7; 9; 7; 11; 9; (-1); (-1); (-1); (-1)];
  [10; 4; 9; 6; 4; 10; (-1); (-1); (-1); (-1); (-1); (-1); (-1); (-1); (-1); (-1)];
  [4; 10; 6; 4; 9; 10; 0; 8; 3; (-1); (-1); (-1); (-1); (-1); (-1); (-1)];
  [10; 0; 1; 10; 6; 0; 6; 4; 0; (-1); (-1); (-1); (-1); (-1); (-1); (-1)];
  [8; 3; 1; 8; 1; 6; 8; 6; 4; 6; 1; 10; (-1); (-1); (-1); (-1)];
  [1; 4; 9; 1; 2; 4; 2; 6; 4; (-1); (-1); (-1); (-1); (-1); (-1); (-1)];
  [3; 0; 8; 1; 2; 9; 2; 4; 9; 2; 6; 4; (-1); (-1); (-1); (-1)];
  [0; 2; 4; 4; 2; 6; (-1); (-1); (-1); (-1); (-1); (-1); (-1); (-1); (-1); (-1)];
  [8; 3; 2; 8; 2; 4; 4; 2; 6; (-1); (-1); (-1); (-1); (-1); (-1); (-1)];
  [10; 4; 9; 10; 6; 4; 11; 2; 3; (-1); (-1); (-1); (-1); (-1); (-1); (-1)];
  [0; 8; 2; 2; 8; 11; 4; 9; 10; 4; 10; 6; (-1); (-1); (-1); (-1)];
  [3; 11; 2; 0; 1; 6; 0; 6; 4; 6; 1; 10; (-1); (-1); (-1); (-1)];
  [6; 4; 1; 6; 1; 10; 4; 8; 1; 2; 1; 11; 8; 11; 1; (-1)];
  [9; 6; 4; 9; 3; 6; 9; 1; 3; 11; 6; 3; (-1); (-1); (-1); (-1)];
  [8; 11; 1; 8; 1; 0; 11; 6; 1; 9; 1; 4; 6; 4; 1; (-1)];
  [3; 11; 6; 3; 6; 0; 0; 6; 4; (-1); (-1); (-1); (-1); (-1); (-1); (-1)];
  [6; 4; 8; 11; 6; 8; (-1); (-1); (-1); (-1); (-1); (-1); (-1); (-1); (-1); (-1)];
  [7; 10; 6; 7; 8; 10; 8; 9; 10; (-1); (-1); (-1); (-1); (-1); (-1); (-1)];
  [0; 7; 3; 0; 10; 7; 0; 9; 10; 6; 7; 10; (-1); (-1); (-1); (-1)];
  [10; 6; 7; 1; 10; 7; 1; 7; 8; 1; 8; 0; (-1); (-1); (-1); (-1)];
  [10; 6; 7; 10; 7; 1; 1; 7; 3; (-1); (-1); (-1); (-1); (-1); (-1); (-1)];
  [1; 2; 6; 1; 6; 8; 1; 8; 9; 8; 6; 7; (-1); (-1); (-1); (-1)];
  [2; 6; 9; 2; 9; 1; 6; 7; 9; 0; 9; 3; 7; 3; 9; (-1)];
  [7; 8; 0; 7; 0; 6; 6; 0; 2; (-1); (-1); (-1); (-1); (-1); (-1); (-1)];
  [7; 3; 2; 6; 7; 2; (-1); (-1); (-1); (-1); (-1); (-1); (-1); (-1); (-1); (-1)];
  [2; 3; 11; 10; 6; 8; 10; 8; 9; 8; 6; 7; (-1); (-1); (-1); (-1)];
  [2; 0; 7; 2; 7; 11; 0; 9; 7; 6; 7; 10; 9; 10; 7; (-1)];
  [1; 8; 0; 1; 7; 8; 1; 10; 7; 6; 7; 10; 2; 3; 11; (-1)];
  [11; 2; 1; 11; 1; 7; 10; 6; 1; 6; 7; 1; (-1); (-1); (-1); (-1)];
  [8; 9; 6; 8; 6; 7; 9; 1; 6; 11; 6; 3; 1; 3; 6; (-1)];
  [0; 9; 1; 11; 6; 7; (-1); (-1); (-1); (-1); (-1); (-1); (-1); (-1); (-1); (-1)];
  [7; 8; 0; 7; 0; 6; 3; 11; 0; 11; 6; 0; (-1); (-1); (-1); (-1)];
  [7; 11; 6; (-1); (-1); (-1); (-1); (-1); (-1); (-1); (-1); (-1); (-1); (-1); (-1); (-1)];
  [7; 6; 11; (-1); (-1); (-1); (-1); (-1); (-1); (-1); (-1); (-1); (-1); (-1); (-1); (-1)];
  [3; 0; 8; 11; 7; 6; (-1); (-1); (-1); (-1); (-1); (-1); (-1); (-1); (-1); (-1)];
  [0; 1; 9; 11; 7; 6; (-1); (-1); (-1); (-1); (-1); (-1); (-1); (-1); (-1); (-1)];
  [8; 1; 9; 8; 3; 1; 11; 7; 6; (-1); (-1); (-1); (-1); (-1); (-1); (-1)];
  [10; 1; 2; 6; 11; 7; (-1); (-1); (-1); (-1); (-1); (-1); (-1); (-1); (-1); (-1)];
  [1; 2; 10; 3; 0; 8; 6; 11; 7; (-1); (-1); (-1); (-1); (-1); (-1); (-1)];
  [2; 9; 0; 2; 10; 9; 6; 11; 7; (-1); (-1); (-1); (-1); (-1); (-1); (-1)];
  [6; 11; 7; 2; 10; 3; 10; 8; 3; 10; 9; 8; (-1); (-1); (-1); (-1)];
  [7; 2; 3; 6; 2; 7; (-1); (-1); (-1); (-1); (-1); (-1); (-1); (-1); (-1); (-1)];
  [7; 0; 8; 7; 6; 0; 6; 2; 0; (-1); (-1); (-1); (-1); (-1); (-1); (-1)];
  [2; 7; 6; 2; 3; 7; 0; 1; 9; (-1); (-1); (-1); (-1); (-1); (-1); (-1)];
  [1; 6; 2; 1; 8; 6; 1; 9; 8; 8; 7; 6; (-1); (-1); (-1); (-1)];
  [10; 7; 6; 10; 1; 7; 1; 3; 7; (-1); (-1); (-1); (-1); (-1); (-1); (-1)];
  [10; 7; 6; 1; 7; 10; 1; 8; 7; 1; 0; 8; (-1); (-1); (-1); (-1)];
  [0; 3; 7; 0; 7; 10; 0; 10; 9; 6; 10; 7; (-1); (-1); (-1); (-1)];
  [7; 6; 10; 7; 10; 8; 8; 10; 9; (-1); (-1); (-1); (-1); (-1); (-1); (-1)];
  [6; 8; 4; 11; 8; 6; (-1); (-1); (-1); (-1); (-1); (-1); (-1); (-1); (-1); (-1)];
  [3; 6; 11; 3; 0; 6; 0; 4; 6; (-1); (-1); (-1); (-1); (-1); (-1); (-1)];
  [8; 6; 11; 8; 4; 6; 9; 0; 1; (-1); (-1); (-1); (-1); (-1); (-1); (-1)];
  [9; 4; 6; 9; 6; 3; 9; 3; 1; 11; 3; 6; (-1); (-1); (-1); (-1)];
  [6; 8; 4; 6; 11; 8; 2; 10; 1; (-1); (-1); (-1); (-1); (-1); (-1); (-1)];
  [1; 2; 10; 3; 0; 11; 0; 6; 11; 0; 4; 6; (-1); (-1); (-1); (-1)];
  [4; 11; 8; 4; 6; 11; 0; 2; 9; 2; 10; 9; (-1); (-1); (-1); (-1)];
  [10; 9; 3; 10; 3; 2; 9; 4; 3; 11; 3; 6; 4; 6; 3; (-1)];
  [8; 2; 3; 8; 4; 2; 4; 6; 2; (-1); (-1); (-1); (-1); (-1); (-1); (-1)];
  [0; 4; 2; 4; 6; 2; (-1); (-1); (-1); (-1); (-1); (-1); (-1); (-1); (-1); (-1)];
  [1; 9; 0; 2; 3; 4; 2; 4; 6; 4; 3; 8; (-1); (-1); (-1); (-1)];
  [1; 9; 4; 1; 4; 2; 2; 4; 6; (-1); (-1); (-1); (-1); (-1); (-1); (-1)];
  [8; 1; 3; 8; 6; 1; 8; 4; 6; 6; 10; 1; (-1); (-1); (-1); (-1)];
  [10; 1; 0; 10; 0; 6; 6; 0; 4; (-1); (-1); (-1); (-1); (-1); (-1); (-1)];
  [4; 6; 3; 4; 3; 8; 6; 10; 3; 0; 3; 9; 10; 9; 3; (-1)];
  [10; 9; 4; 6; 10; 4; (-1); (-1); (-1); (-1); (-1); (-1); (-1); (-1); (-1); (-1)];
  [4; 9; 5; 7; 6; 11; (-1); (-1); (-1); (-1); (-1); (-1); (-1); (-1); (-1); (-1)];
  [0; 8; 3; 4; 9; 5; 11; 7; 6; (-1); (-1); (-1); (-1); (-1); (-1); (-1)];
  [5; 0; 1; 5; 4; 0; 7; 6; 11; (-1); (-1); (-1); (-1); (-1); (-1); (-1)];
  [11; 7; 6; 8; 3; 4; 3; 5; 4; 3; 1; 5; (-1); (-1); (-1); (-1)];
  [9; 5; 4; 10; 1; 2; 7; 6; 11; (-1); (-1); (-1); (-1); (-1); (-1); (-1)];
  [6; 11; 7; 1; 2; 10; 0; 8; 3; 4; 9; 5; (-1); (-1); (-1); (-1)];
  [7; 6; 11; 5; 4; 10; 4; 2; 10; 4; 0; 2; (-1); (-1); (-1); (-1)];
  [3; 4; 8; 3; 5; 4; 3; 2; 5; 10; 5; 2; 11; 7; 6; (-1)];
  [7; 2; 3; 7; 6; 2; 5; 4; 9; (-1); (-1); (-1); (-1); (-1); (-1); (-1)];
  [9; 5; 4; 0; 8; 6; 0; 6; 2; 6; 8; 7; (-1); (-1); (-1); (-1)];
  [3; 6; 2; 3; 7; 6; 1; 5; 0; 5; 4; 0; (-1); (-1); (-1); (-1)];
  [6; 2; 8; 6; 8; 7; 2; 1; 8; 4; 8; 5; 1; 5; 8; (-1)];
  [9; 5; 4; 10; 1; 6; 1; 7; 6; 1; 3; 7; (-1); (-1); (-1); (-1)];
  [1; 6; 10; 1; 7; 6; 1; 0; 7; 8; 7; 0; 9; 5; 4; (-1)];
  [4; 0; 10; 4; 10; 5; 0; 3; 10; 6; 10; 7; 3; 7; 10; (-1)];
  [7; 6; 10; 7; 10; 8; 5; 4; 10; 4; 8; 10; (-1); (-1); (-1); (-1)];
  [6; 9; 5; 6; 11; 9; 11; 8; 9; (-1); (-1); (-1); (-1); (-1); (-1); (-1)];
  [3; 6; 11; 0; 6; 3; 0; 5; 6; 0; 9; 5; (-1); (-1); (-1); (-1)];
  [0; 11; 8; 0; 5; 11; 0; 1; 5; 5; 6; 11; (-1); (-1); (-1); (-1)];
  [6; 11; 3; 6; 3; 5; 5; 3; 1; (-1); (-1); (-1); (-1); (-1); (-1); (-1)];
  [1; 2; 10; 9; 5; 11; 9; 11; 8; 11; 5; 6; (-1); (-1); (-1); (-1)];
  [0; 11; 3; 0; 6; 11; 0; 9; 6; 5; 6; 9; 1; 2; 10; (-1)];
  [11; 8; 5; 11; 5; 6; 8; 0; 5; 10; 5; 2; 0; 2; 5; (-1)];
  [6; 11; 3; 6; 3; 5; 2; 10; 3; 10; 5; 3; (-1); (-1); (-1); (-1)];
  [5; 8; 9; 5; 2; 8; 5; 6; 2; 3; 8; 2; (-1); (-1); (-1); (-1)];
  [9; 5; 6; 9; 6; 0; 0; 6; 2; (-1); (-1); (-1); (-1); (-1); (-1); (-1)];
  [1; 5; 8; 1; 8; 0; 5; 6; 8; 3; 8; 2; 6; 2; 8; (-1)];
  [1; 5; 6; 2; 1; 6; (-1); (-1); (-1); (-1); (-1); (-1); (-1); (-1); (-1); (-1)];
  [1; 3; 6; 1; 6; 10; 3; 8; 6; 5; 6; 9; 8; 9; 6; (-1)];
  [10; 1; 0; 10; 0; 6; 9; 5; 0; 5; 6; 0; (-1); (-1); (-1); (-1)];
  [0; 3; 8; 5; 6; 10; (-1); (-1); (-1); (-1); (-1); (-1); (-1); (-1); (-1); (-1)];
  [10; 5; 6; (-1); (-1); (-1); (-1); (-1); (-1); (-1); (-1); (-1); (-1); (-1); (-1); (-1)];
  [11; 5; 10; 7; 5; 11; (-1); (-1); (-1); (-1); (-1); (-1); (-1); (-1); (-1); (-1)];
  [11; 5; 10; 11; 7; 5; 8; 3; 0; (-1); (-1); (-1); (-1); (-1); (-1); (-1)];
  [5; 11; 7; 5; 10; 11; 1; 9; 0; (-1); (-1); (-1); (-1); (-1); (-1); (-1)];
  [10; 7; 5; 10; 11; 7; 9; 8; 1; 8; 3; 1; (-1); (-1); (-1); (-1)];
  [11; 1; 2; 11; 7; 1; 7; 5; 1; (-1); (-1); (-1); (-1); (-1); (-1); (-1)];
  [0; 8; 3; 1; 2; 7; 1; 7; 5; 7; 2; 11; (-1); (-1); (-1); (-1)];
  [9; 7; 5; 9; 2; 7; 9; 0; 2; 2; 11; 7; (-1); (-1); (-1); (-1)];
  [7; 5; 2; 7; 2; 11; 5; 9; 2; 3; 2; 8; 9; 8; 2; (-1)];
  [2; 5; 10; 2; 3; 5; 3; 7; 5; (-1); (-1); (-1); (-1); (-1); (-1); (-1)];
  [8; 2; 0; 8; 5; 2; 8; 7; 5; 10; 2; 5; (-1); (-1); (-1); (-1)];
  [9; 0; 1; 5; 10; 3; 5; 3; 7; 3; 10; 2; (-1); (-1); (-1); (-1)];
  [9; 8; 2; 9; 2; 1; 8; 7; 2; 10; 2; 5; 7; 5; 2; (-1)];
  [1; 3; 5; 3; 7; 5; (-1); (-1); (-1); (-1); (-1); (-1); (-1); (-1); (-1); (-1)];
  [0; 8; 7; 0; 7; 1; 1; 7; 5; (-1); (-1); (-1); (-1); (-1); (-1); (-1)];
  [9; 0; 3; 9; 3; 5; 5; 3; 7; (-1); (-1); (-1); (-1); (-1); (-1); (-1)];
  [9; 8; 7; 5; 9; 7; (-1); (-1); (-1); (-1); (-1); (-1); (-1); (-1); (-1); (-1)];
  [5; 8; 4; 5; 10; 8; 10; 11; 8; (-1); (-1); (-1); (-1); (-1); (-1); (-1)];
  [5; 0; 4; 5; 11; 0; 5; 10; 11; 11; 3; 0; (-1); (-1); (-1); (-1)];
  [0; 1; 9; 8; 4; 10; 8; 10; 11; 10; 4; 5; (-1); (-1); (-1); (-1)];
  [10; 11; 4; 10; 4; 5; 11; 3; 4; 9; 4; 1; 3; 1; 4; (-1)];
  [2; 5; 1; 2; 8; 5; 2; 11; 8; 4; 5; 8; (-1); (-1); (-1); (-1)];
  [0; 4; 11; 0; 11; 3; 4; 5; 11; 2; 11; 1; 5; 1; 11; (-1)];
  [0; 2; 5; 0; 5; 9; 2; 11; 5; 4; 5; 8; 11; 8; 5; (-1)];
  [9; 4; 5; 2; 11; 3; (-1); (-1); (-1); (-1); (-1); (-1); (-1); (-1); (-1); (-1)];
  [2; 5; 10; 3; 5; 2; 3; 4; 5; 3; 8; 4; (-1); (-1); (-1); (-1)];
  [5; 10; 2; 5; 2; 4; 4; 2; 0; (-1); (-1); (-1); (-1); (-1); (-1); (-1)];
  [3; 10; 2; 3; 5; 10; 3; 8; 5; 4; 5; 8; 0; 1; 9; (-1)];
  [5; 10; 2; 5; 2; 4; 1; 9; 2; 9; 4; 2; (-1); (-1); (-1); (-1)];
  [8; 4; 5; 8; 5; 3; 3; 5; 1; (-1); (-1); (-1); (-1); (-1); (-1); (-1)];
  [0; 4; 5; 1; 0; 5; (-1); (-1); (-1); (-1); (-1); (-1); (-1); (-1); (-1); (-1)];
  [8; 4; 5; 8; 5; 3; 9; 0; 5; 0; 3; 5; (-1); (-1); (-1); (-1)];
  [9; 4; 5; (-1); (-1); (-1); (-1); (-1); (-1); (-1); (-1); (-1); (-1); (-1); (-1); (-1)];
  [4; 11; 7; 4; 9; 11; 9; 10; 11; (-1); (-1); (-1); (-1); (-1); (-1); (-1)];
  [0; 8; 3; 4; 9; 7; 9; 11; 7; 9; 10; 11; (-1); (-1); (-1); (-1)];
  [1; 10; 11; 1; 11; 4; 1; 4; 0; 7; 4; 11; (-1); (-1); (-1); (-1)];
  [3; 1; 4; 3; 4; 8; 1; 10; 4; 7; 4; 11; 10; 11; 4; (-1)];
  [4; 11; 7; 9; 11; 4; 9; 2; 11; 9; 1; 2; (-1); (-1); (-1); (-1)];
  [9; 7; 4; 9; 11; 7; 9; 1; 11; 2; 11; 1; 0; 8; 3; (-1)];
  [11; 7; 4; 11; 4; 2; 2; 4; 0; (-1); (-1); (-1); (-1); (-1); (-1); (-1)];
  [11; 7; 4; 11; 4; 2; 8; 3; 4; 3; 2; 4; (-1); (-1); (-1); (-1)];
  [2; 9; 10; 2; 7; 9; 2; 3; 7; 7; 4; 9; (-1); (-1); (-1); (-1)];
  [9; 10; 7; 9; 7; 4; 10; 2; 7; 8; 7; 0; 2; 0; 7; (-1)];
  [3; 7; 10; 3; 10; 2; 7; 4; 10; 1; 10; 0; 4; 0; 10; (-1)];
  [1; 10; 2; 8; 7; 4; (-1); (-1); (-1); (-1); (-1); (-1); (-1); (-1); (-1); (-1)];
  [4; 9; 1; 4; 1; 7; 7; 1; 3; (-1); (-1); (-1); (-1); (-1); (-1); (-1)];
  [4; 9; 1; 4; 1; 7; 0; 8; 1; 8; 7; 1; (-1); (-1); (-1); (-1)];
  [4; 0; 3; 7; 4; 3; (-1); (-1); (-1); (-1); (-1); (-1); (-1); (-1); (-1); (-1)];
  [4; 8; 7; (-1); (-1); (-1); (-1); (-1); (-1); (-1); (-1); (-1); (-1); (-1); (-1); (-1)];
  [9; 10; 8; 10; 11; 8; (-1); (-1); (-1); (-1); (-1); (-1); (-1); (-1); (-1); (-1)];
  [3; 0; 9; 3; 9; 11; 11; 9; 10; (-1); (-1); (-1); (-1); (-1); (-1); (-1)];
  [0; 1; 10; 0; 10; 8; 8; 10; 11; (-1); (-1); (-1); (-1); (-1); (-1); (-1)];
  [3; 1; 10; 11; 3; 10; (-1); (-1); (-1); (-1); (-1); (-1); (-1); (-1); (-1); (-1)];
  [1; 2; 11; 1; 11; 9; 9; 11; 8; (-1); (-1); (-1); (-1); (-1); (-1); (-1)];
  [3; 0; 9; 3; 9; 11; 1; 2; 9; 2; 11; 9; (-1); (-1); (-1); (-1)];
  [0; 2; 11; 8; 0; 11; (-1); (-1); (-1); (-1); (-1); (-1); (-1); (-1); (-1); (-1)];
  [3; 2; 11; (-1); (-1); (-1); (-1); (-1); (-1); (-1); (-1); (-1); (-1); (-1); (-1); (-1)];
  [2; 3; 8; 2; 8; 10; 10; 8; 9; (-1); (-1); (-1); (-1); (-1); (-1); (-1)];
  [9; 10; 2; 0; 9; 2; (-1); (-1); (-1); (-1); (-1); (-1); (-1); (-1); (-1); (-1)];
  [2; 3; 8; 2; 8; 10; 0; 1; 8; 1; 10; 8; (-1); (-1); (-1); (-1)];
  [1; 10; 2; (-1); (-1); (-1); (-1); (-1); (-1); (-1); (-1); (-1); (-1); (-1); (-1); (-1)];
  [1; 3; 8; 9; 1; 8; (-1); (-1); (-1); (-1); (-1); (-1); (-1); (-1); (-1); (-1)];
  [0; 9; 1; (-1); (-1); (-1); (-1); (-1); (-1); (-1); (-1); (-1); (-1); (-1); (-1); (-1)];
  [0; 3; 8; (-1); (-1); (-1); (-1); (-1); (-1); (-1); (-1); (-1); (-1); (-1); (-1); (-1)];
  [(-1); (-1); (-1); (-1); (-1); (-1); (-1); (-1); (-1); (-1); (-1); (-1); (-1); (-1); (-1); (-1)]
]%Z.

(** mesh/marching_cubes.cc:289-291 [kEdgeIndexPairs[12][2]] *)
Definition kEdgeIndexPairs : list (nat * nat) := [(0, 1); (1, 2); (2, 3); (3, 0); (4, 5); (5, 6); (6, 7); (7, 4); (0, 4); (1, 5); (2, 6); (3, 7)]%nat.

(** mesh_integrator.h:92-93, 116-118 [cube_index_offsets_], the columns of the
    3x8 matrix *)
Definition cube_index_offsets : list idx3 :=
  [V3 0 0 0; V3 1 0 0; V3 1 1 0; V3 0 1 0; V3 0 0 1; V3 1 0 1; V3 1 1 1; V3 0 1 1].
Definition corner_offset (i : nat) : idx3 := nth i cube_index_offsets (V3 0 0 0).

(** mesh/mesh.h:36-161 [struct Mesh]; [block_size] is not modelled (it never
    enters a computation on meshes) *)
Record mesh : Type := MkMesh {
  m_vertices : list pt3; m_indices : list Z; m_normals : list pt3; m_colors : list Color;
  m_origin : pt3; m_updated : bool }.
(** mesh.h:44-53 constructors *)
Definition new_mesh (origin : pt3) : mesh := MkMesh [] [] [] [] origin false.
(** mesh.h:77-82 [clear] keeps the origin and the [updated] flag *)
Definition clear_mesh (m : mesh) : mesh := MkMesh [] [] [] [] (m_origin m) (m_updated m).

(** marching_cubes.h:115-125 [calculateVertexConfiguration]; a NaN is not [< 0]. *)
Definition corner_bit (s : f32) (i : Z) : Z := if flt s f0 then Z.shiftl 1 i else 0.
Definition calculateVertexConfiguration (s : nat -> f32) : Z :=
  Z.lor (Z.lor (Z.lor (Z.lor (Z.lor (Z.lor (Z.lor
    (corner_bit (s 0%nat) 0) (corner_bit (s 1%nat) 1)) (corner_bit (s 2%nat) 2))
    (corner_bit (s 3%nat) 3)) (corner_bit (s 4%nat) 4)) (corner_bit (s 5%nat) 5))
    (corner_bit (s 6%nat) 6)) (corner_bit (s 7%nat) 7).

(** marching_cubes.h:149-162 [interpolateVertex]; kMinSdfDifference = 1e-6f has
    the bits of [kEpsilon]; the double literal 0.5 times a float vector is
    evaluated in float by Eigen *)
Definition fhalf : f32 := f32_lit 1 (-1).
Definition interp_axis (t a b : f32) : f32 := fadd a (fmul t (fsub b a)).
Definition mid_axis (a b : f32) : f32 := fmul fhalf (fadd a b).
Definition interpolateVertex (v1 v2 : pt3) (sdf1 sdf2 : f32) : pt3 :=
  let diff := fsub sdf1 sdf2 in
  if fge (fabs diff) kEpsilon then zip3 (interp_axis (fdiv sdf1 diff)) v1 v2
  else zip3 mid_axis v1 v2.

(** marching_cubes.h:127-143 [interpolateEdgeVertices]: column [i] of the 3x12
    matrix; [None] is a column the function leaves uninitialised *)
Definition crosses (a b : f32) : bool :=
  (flt a f0 && fge b f0) || (fge a f0 && flt b f0).
Definition edge_vertex (x : nat -> pt3) (s : nat -> f32) (i : nat) : option pt3 :=
  match nth_error kEdgeIndexPairs i with
  | Some (a, b) =>
      if crosses (s a) (s b) then Some (interpolateVertex (x a) (x b) (s a) (s b)) else None
  | None => None
  end.

(** Eigen [cross] of two float 3-vectors *)
Definition cross3 (a b : pt3) : pt3 :=
  V3 (fsub (fmul (vy a) (vz b)) (fmul (vz a) (vy b)))
     (fsub (fmul (vz a) (vx b)) (fmul (vx a) (vz b)))
     (fsub (fmul (vx a) (vy b)) (fmul (vy a) (vx b))).

(** marching_cubes.h:93-110: one iteration of the loop: three vertices, three
    indices, three copies of the normal computed from the vertices stored at
    [next_index]. [VertexIndex] is size_t; the wrap at 2^64 is not modelled (the
    vertex array would have to fill the address space). *)
Definition emit_triangle (p q r : pt3) (next : Z) (m : mesh) : res (mesh * Z) :=
  let vs := m_vertices m ++ [p; q; r] in
  match nth_error vs (Z.to_nat next), nth_error vs (Z.to_nat (next + 1)),
        nth_error vs (Z.to_nat (next + 2)) with
  | Some p0, Some p1, Some p2 =>
      let n := normalized3 (cross3 (pt_sub p1 p0) (pt_sub p2 p0)) in
      Ok (MkMesh vs (m_indices m ++ [next; next + 1; next + 2]) (m_normals m ++ [n; n; n])
            (m_colors m) (m_origin m) (m_updated m), next + 3)
  | _, _, _ => UB
  end.

(** reading column [e] of the 3x12 matrix: undefined when the column does not
    exist or was not initialised *)
Definition read_edge (ev : nat -> option pt3) (e : Z) : option pt3 :=
  if e <? 0 then None else ev (Z.to_nat e).
(** marching_cubes.h:89-112: the loop over a table row, which stops at -1 and is
    undefined when it runs off the row *)
Fixpoint mesh_row (row : list Z) (ev : nat -> option pt3) (next : Z) (m : mesh)
  : res (mesh * Z) :=
  match row with
  | [] => UB
  | e0 :: row1 =>
      if e0 =? -1 then Ok (m, next)
      else
        match row1 with
        | e1 :: e2 :: rest =>
            match read_edge ev e2, read_edge ev e1, read_edge ev e0 with
            | Some p, Some q, Some r =>
                rbind (emit_triangle p q r next m) (fun mn => mesh_row rest ev (snd mn) (fst mn))
            | _, _, _ => UB
            end
        | _ => UB
        end
  end.

(** marching_cubes.h:72-113 [meshCube] (the overload used by the integrators) *)
Definition meshCube (x : nat -> pt3) (s : nat -> f32) (next : Z) (m : mesh) : res (mesh * Z) :=
  let index := calculateVertexConfiguration s in
  if index =? 0 then Ok (m, next)
  else
    match nth_error kTriangleTable (Z.to_nat index) with
    | Some row => mesh_row row (edge_vertex x s) next m
    | None => UB
    end.
