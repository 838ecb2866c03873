(** Vocabulary for the statements about comparing and centring layers. *)
From Coq Require Import ZArith List Bool Reals.
From Verif Require Import F32 F32_lemmas Types Index Voxel Layer.
Import ListNotations.
Open Scope Z_scope.

(** two floats agree up to the tolerance: both finite, and their difference,
    rounded to a float, is below 1e-10 *)
Definition close (a b : f32) : Prop :=
  ffin a = true /\ ffin b = true /\ (Rabs (rnd32 (FR a - FR b)) < / 10000000000)%R.
(** what a comparison of two voxels looks at *)
Definition same_vox (k : vkind) : vox k -> vox k -> Prop :=
  match k with
  | KTsdf => fun a b => close (t_distance a) (t_distance b) /\ close (t_weight a) (t_weight b) /\ t_color a = t_color b
  | KEsdf => fun a b => close (e_distance a) (e_distance b) /\ e_observed a = e_observed b /\ e_in_queue a = e_in_queue b
                        /\ e_fixed a = e_fixed b /\ e_parent a = e_parent b
  | KOcc => fun a b => close (o_log a) (o_log b) /\ o_observed a = o_observed b
  | KInt => fun _ _ => False
  end.
Record same_block {k} (a b : Block k) : Prop := {
  sb_size : close (b_size a) (b_size b);
  sb_bsize : close (block_size_of (b_vps a) (b_size a)) (block_size_of (b_vps b) (b_size b));
  sb_vps : b_vps a = b_vps b;
  sb_origin : close (vx (b_origin a)) (vx (b_origin b)) /\ close (vy (b_origin a)) (vy (b_origin b)) /\ close (vz (b_origin a)) (vz (b_origin b));
  sb_voxels : Forall2 (same_vox k) (b_voxels a) (b_voxels b) }.
Record same_layer {k} (a b : Layer k) : Prop := {
  sl_size : close (l_size a) (l_size b);
  sl_bsize : close (l_block_size a) (l_block_size b);
  sl_vps : l_vps a = l_vps b;
  sl_blocks : forall i, match l_get a i, l_get b i with
                        | None, None => True
                        | Some x, Some y => same_block x y
                        | _, _ => False
                        end }.
(** the blocks of a layer have its number of voxels, and no index occurs twice *)
Definition regular {k} (l : Layer k) : Prop :=
  NoDup (getAllAllocatedBlocks l) /\
  forall i b, l_get l i = Some b -> length (b_voxels b) = num_voxels (l_vps l).
(** every float compared is finite *)
Definition finite_vox (k : vkind) : vox k -> Prop :=
  match k with
  | KTsdf => fun a => ffin (t_distance a) = true /\ ffin (t_weight a) = true
  | KEsdf => fun a => ffin (e_distance a) = true
  | KOcc => fun a => ffin (o_log a) = true
  | KInt => fun _ => False
  end.
Definition finite_layer {k} (l : Layer k) : Prop :=
  ffin (l_size l) = true /\ ffin (l_block_size l) = true /\
  forall i b, l_get l i = Some b ->
    ffin (b_size b) = true /\ ffin (block_size_of (b_vps b) (b_size b)) = true /\
    all3 (fun x => ffin x = true) (b_origin b) /\ Forall (finite_vox k) (b_voxels b).

(** block [b'] is block [b] with its origin moved back by [o]; everything else,
    in particular the voxels, is kept *)
Definition moved {k} (o : pt3) (b b' : Block k) : Prop :=
  b_vps b' = b_vps b /\ b_size b' = b_size b /\ b_has_data b' = b_has_data b /\
  b_updated b' = b_updated b /\ b_voxels b' = b_voxels b /\
  b_origin b' = zip3 fsub (b_origin b) o.
(** a layer of moderate extent: indices and origins of the blocks *)
Definition moderate {k} (l : Layer k) : Prop :=
  NoDup (getAllAllocatedBlocks l) /\
  (1 <= getNumberOfAllocatedBlocks l)%nat /\ Z.of_nat (getNumberOfAllocatedBlocks l) <= 2 ^ 40 /\
  ffin (l_block_size l) = true /\ (/ 2 ^ 40 <= FR (l_block_size l) <= 2 ^ 40)%R /\
  forall i b, l_get l i = Some b ->
    all3 (fun z => Z.abs z <= 2 ^ 20) i /\
    all3 (fun x => ffin x = true /\ (Rabs (FR x) <= 2 ^ 20 * FR (l_block_size l))%R) (b_origin b).

(** ** Memory *)
(** bytes of a voxel: distance, weight and colour of a TSDF voxel; distance, four flags and the parent of an ESDF voxel;
    probability and flag of an occupancy voxel; intensity and weight of an intensity voxel *)
Definition bytes_of_voxel (k : vkind) : Z :=
  match k with KTsdf => 4 + 4 + 4 | KEsdf => 4 + 4 * 1 + 3 * 4 | KOcc => 4 + 4 | KInt => 4 + 4 end.
(** the members of a block, and its voxels *)
Definition bytes_of_block {k} (b : Block k) : Z :=
  8 + 4 + 3 * 4 + 8 + 4 + 4 + 1 + 8 + Z.of_nat (length (b_voxels b)) * bytes_of_voxel k.
(** the members of a layer, and its blocks *)
Definition bytes_of_layer {k} (l : Layer k) : Z :=
  4 + 8 + 4 + 4 + fold_right Z.add 0 (map (fun kb => bytes_of_block (snd kb)) (l_blocks l)).
