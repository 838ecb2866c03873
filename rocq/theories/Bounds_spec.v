(** What map bounds promise. *)
From Coq Require Import ZArith List Bool Reals.
From Flocq Require Import Core.
From Verif Require Import F32 F32_lemmas Types Index Index_float Voxel Layer.
Open Scope Z_scope.

(** [p] lies in the box between [lo] and [hi] *)
Definition in_box (lo hi : v3 f64) (p : pt3) : Prop :=
  (DR (vx lo) <= FR (vx p) <= DR (vx hi) /\ DR (vy lo) <= FR (vy p) <= DR (vy hi) /\
   DR (vz lo) <= FR (vz p) <= DR (vz hi))%R.
(** [p] lies outside the box by more than [d] along some axis *)
Definition beyond (d : R) (lo hi : v3 f64) (p : pt3) : Prop :=
  (FR (vx p) < DR (vx lo) - d \/ DR (vx hi) + d < FR (vx p) \/
   FR (vy p) < DR (vy lo) - d \/ DR (vy hi) + d < FR (vy p) \/
   FR (vz p) < DR (vz lo) - d \/ DR (vz hi) + d < FR (vz p))%R.
(** [c] is the centre of a voxel of the layer, as the API computes it *)
Definition centre_in {k} (l : Layer k) (c : pt3) : Prop := exists i b v,
  l_get l i = Some b /\ all3 (fun x => 0 <= x < b_vps b) v /\
  c = computeCoordinatesFromVoxelIndex (b_origin b) (b_size b) v.
(** each of the six faces of the box has a voxel centre of the layer closer than [d] *)
Definition snug {k} (d : R) (l : Layer k) (lo hi : v3 f64) : Prop :=
  forall ax, In ax (cons 0%nat (cons 1%nat (cons 2%nat nil))) ->
  let at3 {A} (v : v3 A) := match ax with 0%nat => vx v | 1%nat => vy v | _ => vz v end in
  (exists c, centre_in l c /\ (Rabs (FR (at3 c) - DR (at3 lo)) < d)%R) /\
  (exists c, centre_in l c /\ (Rabs (FR (at3 c) - DR (at3 hi)) < d)%R).
(** every block has the geometry the layer gives to the block at its index *)
Definition laid_out {k} (l : Layer k) : Prop := forall i b, l_get l i = Some b ->
  b_vps b = l_vps l /\ b_size b = l_size l /\ b_origin b = new_block_origin (l_vps l) (l_size l) i.
(** the blocks are within 2^17 voxels of the origin along each axis *)
Definition blocks_in_range {k} (l : Layer k) : Prop := forall i b, l_get l i = Some b ->
  all3 (fun c => Z.abs c * l_vps l <= 2 ^ 17) i.
(** a position within 2^18 voxels of the origin along each axis *)
Definition near_origin (s : f32) (p : pt3) : Prop :=
  all3 (fun c => ffin c = true /\ (Rabs (FR c / FR s) <= 262144)%R) p.
