(** Vocabulary for clouds that show voxels. *)
From Coq Require Import ZArith List Bool Reals.
From Verif Require Import F32 Types Index Voxel Layer Ray Mesh_spec Interp_spec VoxCloud.
Import ListNotations.
Open Scope Z_scope.

(** coordinates of the centre of the voxel with global index [g] *)
Definition centre_of {k} (l : Layer k) (g : idx3) : pt3 :=
  match l_get l (map3 (fun c => c / l_vps l) g) with
  | Some b => computeCoordinatesFromVoxelIndex (b_origin b) (b_size b) (map3 (fun c => c mod l_vps l) g)
  | None => V3 f0 f0 f0
  end.
(** The cloud has exactly one point, at its centre and with the value [accept] gives, for every voxel of the layer that
    is accepted, and no other point. *)
Definition pictures {k A} (l : Layer k) (accept : idx3 -> vox k -> A -> Prop) (cloud : list (pt3 * A)) : Prop :=
  exists gs, NoDup gs /\
    (forall g, In g gs <-> exists v a, voxel_at l g = Some v /\ accept g v a) /\
    Forall2 (fun g p => fst p = centre_of l g /\ exists v, voxel_at l g = Some v /\ accept g v (snd p)) gs cloud.
(** a layer as the API builds it, each block listed once *)
Definition proper {k} (l : Layer k) : Prop := built_layer l /\ NoDup (getAllAllocatedBlocks l).
(** voxels within 2^17 voxels of the origin *)
Definition near_origin {k} (l : Layer k) : Prop :=
  forall i b, l_get l i = Some b -> all3 (fun c => Z.abs c * l_vps l <= 2 ^ 17) i.
(** all distances, weights and so on are numbers *)
Definition numbers {k} (l : Layer k) (vals : vox k -> list f32) : Prop :=
  forall g v, voxel_at l g = Some v -> Forall (fun x => ffin x = true) (vals v).
Definition tsdf_vals (v : TsdfVoxel) : list f32 := [t_distance v; t_weight v].
Definition esdf_vals (v : EsdfVoxel) : list f32 := [e_distance v].
Definition int_vals (v : IntensityVoxel) : list f32 := [i_intensity v; i_weight v].
Definition occ_vals (v : OccupancyVoxel) : list f32 := [o_log v].
(** [d] as a share of [range], cut off at -1 and 1 *)
Definition cut_share (range d : R) : R := (Rmax (-1) (Rmin 1 (d / range)))%R.
