(** Vocabulary for C105: the voxels of a ray sorted into blocks. *)
From Coq Require Import ZArith List Bool.
From Verif Require Import F32 Types Assoc.
Import ListNotations.
Open Scope Z_scope.

(** the block of [n] voxels per side that holds voxel [g], and the place of [g] in it *)
Definition block_of (n : Z) (g : idx3) : idx3 := map3 (fun c => c / n) g.
Definition place_of (n : Z) (g : idx3) : idx3 := map3 (fun c => c mod n) g.
(** the places in block [b] that a list of voxels visits, in the order of the list *)
Definition visits (n : Z) (voxels : list idx3) (b : idx3) : list idx3 :=
  map (place_of n) (filter (fun g => idx_eqb b (block_of n g)) voxels).
(** [index] lists for every visited block, and for no other, the places visited *)
Definition sorted_into_blocks (n : Z) (voxels : list idx3) (index : amap (list idx3)) : Prop :=
  NoDup (akeys index) /\
  forall b, alookup b index = match visits n voxels b with [] => None | places => Some places end.
