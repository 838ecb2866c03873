(** Vocabulary for C106: the colours of mesh vertices. *)
From Coq Require Import ZArith List Bool Reals.
From Verif Require Import F32 Types Index Voxel Layer Marching MeshInt Mesh_spec Interp_spec.
Import ListNotations.
Open Scope Z_scope.

(** blocks whose voxels are less than 32768 voxels from the origin along each axis *)
Definition blocks_in_range {k} (l : Layer k) : Prop :=
  forall i b, l_get l i = Some b -> all3 (fun c => (Z.abs c + 2) * l_vps l <= 32768) i.
(** the colour of a voxel that is observed: for a TSDF its own, for an ESDF white *)
Definition voxel_colour (k : vkind) (min_weight : f32) : vox k -> Color -> Prop :=
  match k return vox k -> Color -> Prop with
  | KTsdf => fun v c => fle (t_weight v) min_weight = false /\ c = t_color v
  | KEsdf => fun v c => e_observed v = true /\ c = MkColor 255 255 255 255
  | _ => fun _ _ => False
  end.
(** the point lies in the cell of voxel [g], up to rounding *)
Definition lies_in {k} (l : Layer k) (p : pt3) (g : idx3) : Prop :=
  in_cell (l_vps l) (l_size l) (vx p) (vx g) /\ in_cell (l_vps l) (l_size l) (vy p) (vy g) /\
  in_cell (l_vps l) (l_size l) (vz p) (vz g).
(** the vertex has the colour of the observed voxel it lies in *)
Definition coloured_by {k} (l : Layer k) (min_weight : f32) (p : pt3) (c : Color) : Prop :=
  exists g v, voxel_at l g = Some v /\ voxel_colour k min_weight v c /\ lies_in l p g.
