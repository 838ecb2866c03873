(** Blocks and layers as values. Definitions only. *)
From Coq Require Import ZArith List Bool.
From Verif Require Import F32 Types Index Voxel Serialize Assoc.
Import ListNotations.
Open Scope Z_scope.

(** block.h:15-18 [Update::Status]: one bit per derived product *)
Inductive ubit : Type := kMap | kMesh | kEsdf.
Record upd : Type := MkUpd { u_map : bool; u_mesh : bool; u_esdf : bool }.
Definition upd_none : upd := MkUpd false false false.
(** [bitset::set()] *)
Definition upd_all : upd := MkUpd true true true.
Definition upd_get (u : upd) (b : ubit) : bool :=
  match b with kMap => u_map u | kMesh => u_mesh u | kEsdf => u_esdf u end.
(** [bitset::reset(bit)] *)
Definition upd_reset (u : upd) (b : ubit) : upd :=
  match b with
  | kMap => MkUpd false (u_mesh u) (u_esdf u)
  | kMesh => MkUpd (u_map u) false (u_esdf u)
  | kEsdf => MkUpd (u_map u) (u_mesh u) false
  end.

(** block.h:190-214: the members of a block; the cached inverse sizes are
    recomputed by [inv_of], [block_size_of] *)
Record Block (k : vkind) : Type := MkBlock {
  b_vps : Z; b_size : f32; b_origin : pt3; b_has_data : bool; b_updated : upd;
  b_voxels : list (vox k) }.
Arguments MkBlock {k} _ _ _ _ _ _.
Arguments b_vps {k} _.
Arguments b_size {k} _.
Arguments b_origin {k} _.
Arguments b_has_data {k} _.
Arguments b_updated {k} _.
Arguments b_voxels {k} _.

(** block.h:36 [num_voxels_] (size_t) *)
Definition num_voxels (vps : Z) : nat := Z.to_nat (u64 (vps * vps * vps)).
(** block.h:30-41 constructor *)
Definition new_block {k} (vps : Z) (s : f32) (origin : pt3) : Block k :=
  MkBlock vps s origin false upd_none (repeat (vdefault k) (num_voxels vps)).
(** block.h:174,176: setters *)
Definition set_has_data {k} (h : bool) (b : Block k) : Block k :=
  MkBlock (b_vps b) (b_size b) (b_origin b) h (b_updated b) (b_voxels b).
Definition set_updated {k} (u : upd) (b : Block k) : Block k :=
  MkBlock (b_vps b) (b_size b) (b_origin b) (b_has_data b) u (b_voxels b).
Definition set_voxels {k} (vs : list (vox k)) (b : Block k) : Block k :=
  MkBlock (b_vps b) (b_size b) (b_origin b) (b_has_data b) (b_updated b) vs.
Definition set_origin {k} (o : pt3) (b : Block k) : Block k :=
  MkBlock (b_vps b) (b_size b) o (b_has_data b) (b_updated b) (b_voxels b).

(** merge voxel lists elementwise (block_inl.h:122-127) *)
Fixpoint merge_voxels (k : vkind) (a b : list (vox k)) : option (list (vox k)) :=
  match a, b with
  | [], [] => Some []
  | x :: a', y :: b' =>
      match merge_vox k x y, merge_voxels k a' b' with
      | Some z, Some c => Some (z :: c)
      | _, _ => None
      end
  | _, _ => None
  end.
(** block_inl.h:112-129 [this->mergeBlock(other)]; CHECK_EQ compares the floats *)
Definition mergeBlock {k} (this other : Block k) : res (Block k) :=
  if feq (b_size other) (b_size this) && (b_vps other =? b_vps this) then
    if negb (b_has_data other) then Ok this
    else
      match merge_voxels k (b_voxels other) (b_voxels this) with
      | Some vs => Ok (set_voxels vs (set_updated upd_all (set_has_data true this)))
      | None => UB
      end
  else Abort.

(** layer.h:283-295 *)
Record Layer (k : vkind) : Type := MkLayer {
  l_size : f32; l_vps : Z; l_blocks : amap (Block k) }.
Arguments MkLayer {k} _ _ _.
Arguments l_size {k} _.
Arguments l_vps {k} _.
Arguments l_blocks {k} _.
Definition with_blocks {k} (l : Layer k) (m : amap (Block k)) : Layer k :=
  MkLayer (l_size l) (l_vps l) m.
Definition l_block_size {k} (l : Layer k) : f32 := block_size_of (l_vps l) (l_size l).
Definition l_get {k} (l : Layer k) (i : idx3) : option (Block k) := alookup i (l_blocks l).

(** layer.h:34-44 constructor *)
Definition new_layer (k : vkind) (s : f32) (vps : Z) : res (Layer k) :=
  if flt f0 s && flt f0 (block_size_of vps s) && (0 <? vps) then Ok (MkLayer s vps [])
  else Abort.

(** layer.h:133-145 [allocateNewBlock]: [emplace] keeps an existing entry *)
Definition allocateNewBlock {k} (l : Layer k) (i : idx3) : Layer k :=
  with_blocks l (ainsert i (new_block (l_vps l) (l_size l)
                              (new_block_origin (l_vps l) (l_size l) i)) (l_blocks l)).
(** layer.h:95-103 [allocateBlockPtrByIndex] *)
Definition allocateBlockPtrByIndex {k} (l : Layer k) (i : idx3) : Layer k :=
  match l_get l i with Some _ => l | None => allocateNewBlock l i end.
(** layer.h:152-161 [insertBlock] *)
Definition insertBlock {k} (l : Layer k) (i : idx3) (b : Block k) : Layer k :=
  with_blocks l (ainsert i b (l_blocks l)).
(** layer.h:163-164 *)
Definition removeBlock {k} (l : Layer k) (i : idx3) : Layer k :=
  with_blocks l (aerase i (l_blocks l)).
Definition removeAllBlocks {k} (l : Layer k) : Layer k := with_blocks l [].
(** layer.h:184-192, 205-209 *)
Definition getAllAllocatedBlocks {k} (l : Layer k) : list idx3 := akeys (l_blocks l).
Definition getNumberOfAllocatedBlocks {k} (l : Layer k) : nat := length (l_blocks l).
Definition hasBlock {k} (l : Layer k) (i : idx3) : bool :=
  match l_get l i with Some _ => true | None => false end.
(** layer.h:194-203 *)
Definition getAllUpdatedBlocks {k} (l : Layer k) (bit : ubit) : list idx3 :=
  map fst (filter (fun kv => upd_get (b_updated (snd kv)) bit) (l_blocks l)).

(** Eigen [squaredNorm] of a float 3-vector: Eigen's unrolled reduction of three
    terms associates as x*x + (y*y + z*z), each operation rounded *)
Definition sqnorm (p : pt3) : f32 :=
  fadd (fmul (vx p) (vx p)) (fadd (fmul (vy p) (vy p)) (fmul (vz p) (vz p))).
(** layer.h:170-182 [removeDistantBlocks]: float squared norm compared with a
    double product *)
Definition is_distant {k} (c : pt3) (d : f64) (b : Block k) : bool :=
  dgt (f64_of_f32 (sqnorm (pt_sub (b_origin b) c))) (dmul d d).
Definition needs_erasing {k} (l : Layer k) (c : pt3) (d : f64) : list idx3 :=
  map fst (filter (fun kv => is_distant c d (snd kv)) (l_blocks l)).
Definition removeDistantBlocks {k} (l : Layer k) (c : pt3) (d : f64) : Layer k :=
  with_blocks l (fold_left (fun m i => aerase i m) (needs_erasing l c d) (l_blocks l)).

(** layer.h:215-239 [getVoxelPtrByGlobalIndex], the voxel read through it;
    [Ok None] is nullptr *)
Definition getVoxelByGlobalIndex {k} (l : Layer k) (g : idx3) : res (option (vox k)) :=
  rbind (of_opt (getBlockIndexFromGlobalVoxelIndex g (vps_inv_layer (l_vps l)))) (fun bi =>
    match l_get l bi with
    | None => Ok None
    | Some b =>
        rbind (getLocalFromGlobalVoxelIndex g (l_vps l)) (fun v =>
          match nth_error (b_voxels b) (Z.to_nat (computeLinearIndexFromVoxelIndex (b_vps b) v)) with
          | Some x => Ok (Some x)
          | None => UB
          end)
    end).
