(** Vocabulary for slices and batches of queries. *)
From Coq Require Import ZArith List Bool.
From Verif Require Import F32 Types Assoc Index Voxel Layer Update Ray Interp Interp_spec Grad Slice.
Import ListNotations.
Open Scope Z_scope.

(** the voxels of a block with the coordinates of their centres, in the order of their linear indices *)
Definition centres {k} (b : Block k) : list (pt3 * vox k) :=
  flat_map (fun p => match computeVoxelIndexFromLinearIndex (b_vps b) (Z.of_nat (fst p)) with
                     | Some v => [(computeCoordinatesFromVoxelIndex (b_origin b) (b_size b) v, snd p)]
                     | None => []
                     end) (combine (seq 0 (length (b_voxels b))) (b_voxels b)).
(** the difference of a coordinate and the plane, in double precision *)
Definition from_plane (axis : nat) (plane : f64) (p : pt3) : f64 := dabs (dsub (f64_of_f32 (get3 axis p)) plane).
(** the voxels reported: blocks in any order, those with the origin within one block of the plane; in them the voxels
    that count and have the centre within one voxel of the plane *)
Definition slice_hits {k} (block_counts : Block k -> bool) (counts : vox k -> bool) (axis : nat) (plane : f64) (l : Layer k) : list (pt3 * vox k) :=
  flat_map (fun e => let b := snd e in
     if block_counts b && negb (dgt (from_plane axis plane (b_origin b)) (f64_of_f32 (block_size_of (b_vps b) (b_size b))))
     then filter (fun p => dle (from_plane axis plane (fst p)) (f64_of_f32 (b_size b)) && counts (snd p)) (centres b)
     else []) (l_blocks l).
(** [new] is [old] with the first entries replaced by those of [xs], as far as they fit *)
Definition filled {A} (xs old new : list A) : Prop :=
  length new = length old /\
  forall j, (j < length old)%nat -> nth_error new j = match nth_error xs j with Some x => Some x | None => nth_error old j end.
(** positions, distances and weights as doubles *)
Definition xpos {k} (hits : list (pt3 * vox k)) : list dpt := map (fun h => map3 f64_of_f32 (fst h)) hits.
Definition edist (hits : list (pt3 * vox KEsdf)) : list f64 := map (fun h => f64_of_f32 (e_distance (snd h))) hits.
Definition tdist (hits : list (pt3 * vox KTsdf)) : list f64 := map (fun h => f64_of_f32 (t_distance (snd h))) hits.
Definition tweight (hits : list (pt3 * vox KTsdf)) : list f64 := map (fun h => f64_of_f32 (t_weight (snd h))) hits.
