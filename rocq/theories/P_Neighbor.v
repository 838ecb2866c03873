(** Properties C05 and C06: neighbourhoods. *)
From Coq Require Import ZArith List Reals Lia.
From Verif Require Import F32 Types Index Neighbor Neighbor_proofs.
Import ListNotations.
Open Scope Z_scope.

(** C05: any block index, any local index, any direction, any vps > 0. *)
Theorem C05_neighbour_is_global_sum : forall b v d vps, 0 < vps ->
  exists b' v', getFromBlockAndVoxelIndexAndDirection b v d vps = Ok (Some (b', v')) /\
    all3 (fun c => 0 <= c < vps) v' /\
    getGlobalVoxelIndexFromBlockAndVoxelIndex b' v' vps =
      idx_add (getGlobalVoxelIndexFromBlockAndVoxelIndex b v vps) d.
Proof. exact direction_spec. Qed.
Print Assumptions C05_neighbour_is_global_sum.

Theorem C05_neighbourhood : forall c b v vps i d, 0 < vps ->
  nth_error (firstn (conn_num c) kOffsets) i = Some d ->
  exists b' v', nth_error (getFromBlockAndVoxelIndex c b v vps) i = Some (Ok (Some (b', v'))) /\
    all3 (fun x => 0 <= x < vps) v' /\
    getGlobalVoxelIndexFromBlockAndVoxelIndex b' v' vps =
      idx_add (getGlobalVoxelIndexFromBlockAndVoxelIndex b v vps) d /\
    nth_error (getFromGlobalIndex c (getGlobalVoxelIndexFromBlockAndVoxelIndex b v vps)) i
      = Some (getGlobalVoxelIndexFromBlockAndVoxelIndex b' v' vps).
Proof. exact conn_neighbours. Qed.
Print Assumptions C05_neighbourhood.

Theorem C05_offset_between : forall sb sv eb ev vps, vps <> 0 ->
  exists d, getOffsetBetweenVoxels sb sv eb ev vps = Ok d /\
   idx_add (getGlobalVoxelIndexFromBlockAndVoxelIndex sb sv vps) d =
   getGlobalVoxelIndexFromBlockAndVoxelIndex eb ev vps.
Proof. exact offset_spec. Qed.
Print Assumptions C05_offset_between.

Example C05_example : getFromBlockAndVoxelIndexAndDirection (V3 0 0 0) (V3 0 15 7) (V3 (-1) 1 (-40)) 16
  = Ok (Some (V3 (-1) 1 (-3), V3 15 0 15)).
Proof. reflexivity. Qed.

(** C06 *)
Theorem C06_complete : forall c d,
  In d (firstn (conn_num c) kOffsets) <->
  Z.max (Z.abs (vx d)) (Z.max (Z.abs (vy d)) (Z.abs (vz d))) = 1 /\
  Z.abs (vx d) + Z.abs (vy d) + Z.abs (vz d) <=
    (match c with kSix => 1 | kEighteen => 2 | kTwentySix => 3 end).
Proof. exact offsets_complete. Qed.
Print Assumptions C06_complete.

Theorem C06_each_once : forall c, NoDup (firstn (conn_num c) kOffsets) /\
  length (firstn (conn_num c) kOffsets) = conn_num c.
Proof. intros c; split; [apply offsets_nodup|destruct c; reflexivity]. Qed.
Print Assumptions C06_each_once.

Theorem C06_symmetric : forall c d, In d (firstn (conn_num c) kOffsets) ->
  In (map3 Z.opp d) (firstn (conn_num c) kOffsets).
Proof. exact offsets_symmetric. Qed.
Print Assumptions C06_symmetric.

(** Euclidean length, to float precision (2^-24). *)
Theorem C06_distances : forall i, (i < 26)%nat ->
  exists d f, nth_error kOffsets i = Some d /\ nth_error kDistances i = Some f /\
    (Rabs (FR f - sqrt (IZR (vx d * vx d + vy d * vy d + vz d * vz d))) <= / 16777216)%R.
Proof. exact distances_euclid. Qed.
Print Assumptions C06_distances.

Example C06_example : nth_error kOffsets 6 = Some (V3 (-1) (-1) 0) /\ length kDistances = 26%nat.
Proof. split; reflexivity. Qed.
