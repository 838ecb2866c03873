(** Vocabulary for the statements about map messages. *)
From Coq Require Import String ZArith List Bool Reals.
From Verif Require Import F32 Types Index Voxel Serialize Assoc Layer RosMsg.
Import ListNotations.
Open Scope Z_scope.

(** the voxels of a block *)
Definition voxels_at {k} (l : Layer k) (i : idx3) : option (list (vox k)) := option_map b_voxels (l_get l i).
(** two maps hold the same blocks with the same voxels *)
Definition same_map {k} (a b : Layer k) : Prop := forall i, voxels_at a i = voxels_at b i.
(** the blocks of a layer have its geometry, and no index occurs twice *)
Definition fits {k} (l : Layer k) : Prop :=
  NoDup (getAllAllocatedBlocks l) /\ fnan (l_size l) = false /\
  forall i b, l_get l i = Some b -> b_vps b = l_vps l /\ fnan (b_size b) = false.
(** the message is for such a layer: kind, number of voxels per side, voxel size *)
Definition for_layer {k} (m : layer_msg) (l : Layer k) : Prop :=
  lm_type m = voxel_type k /\ lm_vps m = l_vps l /\ dfin (lm_size m) = true /\ ffin (l_size l) = true /\
  (Rabs (DR (lm_size m) - FR (l_size l)) < / 200000)%R.
Definition indices (m : layer_msg) : list idx3 := map bm_index (lm_blocks m).
(** every index once, and for each block as much data as its voxels take *)
Definition well_formed (k : vkind) (m : layer_msg) : Prop :=
  NoDup (indices m) /\
  Forall (fun b => length (bm_data b) = (num_voxels (lm_vps m) * wpv k)%nat) (lm_blocks m).
(** what the data of a block stands for *)
Definition content (k : vkind) (vps : Z) (d : list Z) (vs : list (vox k)) : Prop :=
  deserializeFromIntegers k (num_voxels vps) d = Ok vs.
(** a new block of the layer *)
Definition fresh {k} (l : Layer k) (i : idx3) : Block k :=
  new_block (l_vps l) (l_size l) (new_block_origin (l_vps l) (l_size l) i).

(** ** Histories of a server *)
(** the voxel updates produce colours of bytes; flags of the map bit are never
    consumed (only the mesher and the ESDF integrator clear flags, their own) *)
Definition usual (e : event) : Prop :=
  match e with
  | EvIntegrate g f => forall v, color_ok (t_color v) -> color_ok (t_color (f v))
  | EvConsume bit _ => bit <> kMap
  | _ => True
  end.
Definition removes (e : event) : bool := match e with EvRemoveDistant _ _ => true | _ => false end.
Definition receives (e : event) : bool := match e with EvReceive _ => true | _ => false end.
Definition sane_map (size : f32) (vps : Z) : Prop := ffin size = true /\ (0 < vps < 2 ^ 31)%Z.
