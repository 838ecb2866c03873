(** Vocabulary for C107: the PLY export of a layer. *)
From Coq Require Import ZArith List Bool Reals.
From Verif Require Import F32 Types Index Voxel Assoc Layer Marching MeshInt Mesh_spec MeshMsg_spec Interp_spec MeshColor_spec.
Import ListNotations.
Open Scope Z_scope.

(** voxels whose channels are bytes *)
Definition byte_colours {k} (l : Layer k) : Prop :=
  forall g v c mw, voxel_at l g = Some v -> voxel_colour k mw v c -> color_ok c.
(** A layer as the API builds it, with voxels of up to 16 m and up to 1024 of them per side, less than 32768 voxels from the
    origin, and finite distances up to 2^100 in the voxels used *)
Definition exportable {k} (l : Layer k) (mw : f32) : Prop :=
  built_layer l /\ (FR (l_size l) <= 16)%R /\ blocks_in_range l /\ sane_sdf l mw /\ NoDup (akeys (l_blocks l)) /\ byte_colours l.
(** the blocks of a layer, each once, in any order *)
Definition blocks_of {k} (l : Layer k) (order : list idx3) : Prop :=
  NoDup order /\ forall i, In i order <-> l_get l i <> None.
(** the surface of a layer: the vertices of all blocks, three for each triangle *)
Definition surface {k} (l : Layer k) (mw : f32) (order : list idx3) : list pt3 := flat_map (block_points l mw) order.
