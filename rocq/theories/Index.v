(** Index arithmetic: /repo/voxblox/include/voxblox/core/common.h,
    core/block.h, core/block_inl.h, core/layer.h. Definitions only. *)
From Coq Require Import ZArith List Bool.
From Verif Require Import F32 Types.
Open Scope Z_scope.

(** ** common.h *)

(** common.h:153-159 [getGridIndexFromPoint(point, grid_size_inv)] with an
    [int] index type: [floor(p * inv + kEpsilon)] cast to int32; undefined when
    the floor does not fit. *)
Definition grid_axis (p inv : f32) : option Z :=
  to_int32 (ffloorZ (fadd (fmul p inv) kEpsilon)).
Definition getGridIndexFromPoint (p : pt3) (inv : f32) : option idx3 :=
  seq3 (map3 (fun c => grid_axis c inv) p).

(** the same with [GlobalIndex] (int64) elements *)
Definition grid_axis64 (p inv : f32) : option Z :=
  to_int64 (ffloorZ (fadd (fmul p inv) kEpsilon)).
Definition getGlobalGridIndexFromPoint (p : pt3) (inv : f32) : option idx3 :=
  seq3 (map3 (fun c => grid_axis64 c inv) p).

(** common.h:166-171 [getGridIndexFromPoint(scaled_point)], int64 elements (its
    callers use [GlobalIndex]). *)
Definition scaled_grid_axis (p : f32) : option Z :=
  to_int64 (ffloorZ (fadd p kEpsilon)).
Definition getGridIndexFromScaledPoint (p : pt3) : option idx3 :=
  seq3 (map3 scaled_grid_axis p).

(** common.h:179-185 [getGridIndexFromOriginPoint]: [std::round(p * inv)] *)
Definition origin_axis (p inv : f32) : option Z :=
  to_int32 (froundZ (fmul p inv)).
Definition getGridIndexFromOriginPoint (p : pt3) (inv : f32) : option idx3 :=
  seq3 (map3 (fun c => origin_axis c inv) p).

(** common.h:187-193 [getCenterPointFromGridIndex]: [float(i) + 0.5] and the
    product are evaluated in double, then narrowed to float. *)
Definition center_axis (i : Z) (grid_size : f32) : f32 :=
  f32_of_f64 (dmul (dadd (f64_of_f32 (f32_of_Z i)) dhalf) (f64_of_f32 grid_size)).
Definition getCenterPointFromGridIndex (i : idx3) (grid_size : f32) : pt3 :=
  map3 (fun c => center_axis c grid_size) i.

(** common.h:195-201 [getOriginPointFromGridIndex]: float product *)
Definition getOriginPointFromGridIndex (i : idx3) (grid_size : f32) : pt3 :=
  map3 (fun c => fmul (f32_of_Z c) grid_size) i.

(** common.h:208-213 [getGlobalVoxelIndexFromBlockAndVoxelIndex]: int64
    arithmetic on int32 inputs, which cannot overflow. *)
Definition getGlobalVoxelIndexFromBlockAndVoxelIndex
  (b v : idx3) (vps : Z) : idx3 :=
  zip3 (fun bi vi => bi * vps + vi) b v.

(** common.h:215-224 [getBlockIndexFromGlobalVoxelIndex]: the global index is
    converted to float, multiplied, floored and cast to int32. *)
Definition block_axis (g : Z) (vps_inv : f32) : option Z :=
  to_int32 (ffloorZ (fmul (f32_of_Z g) vps_inv)).
Definition getBlockIndexFromGlobalVoxelIndex (g : idx3) (vps_inv : f32) : option idx3 :=
  seq3 (map3 (fun c => block_axis c vps_inv) g).

(** common.h:226 [isPowerOfTwo] *)
Definition isPowerOfTwo (x : Z) : bool := Z.land x (x - 1) =? 0.

(** common.h:233-243 [getLocalFromGlobalVoxelIndex]: [offset = 1 << 31] is
    INT_MIN; the sum is an int64 (undefined on overflow), [&] is two's
    complement, the CHECK aborts unless vps is a power of two. *)
Definition local_axis (g vps : Z) : option Z :=
  match in_range (- 2 ^ 63) (2 ^ 63 - 1) (Some (g + - 2 ^ 31)) with
  | Some s => Some (wrap32 (Z.land s (vps - 1)))
  | None => None
  end.
Definition getLocalFromGlobalVoxelIndex (g : idx3) (vps : Z) : res idx3 :=
  if isPowerOfTwo vps then of_opt (seq3 (map3 (fun c => local_axis c vps) g))
  else Abort.

(** common.h:251 [voxels_per_side_inv = 1.0 / voxels_per_side] (double division
    narrowed to float); layer.h:43 computes [1.0f / float(vps)]. *)
Definition vps_inv_common (vps : Z) : f32 :=
  f32_of_f64 (ddiv d1 (f64_of_Z vps)).
Definition vps_inv_layer (vps : Z) : f32 := fdiv f1 (f32_of_Z vps).

(** common.h:245-255 [getBlockAndVoxelIndexFromGlobalVoxelIndex] *)
Definition getBlockAndVoxelIndexFromGlobalVoxelIndex (g : idx3) (vps : Z)
  : res (idx3 * idx3) :=
  rbind (of_opt (getBlockIndexFromGlobalVoxelIndex g (vps_inv_common vps)))
    (fun b => rbind (getLocalFromGlobalVoxelIndex g vps) (fun v => Ok (b, v))).

(** The addressing part of layer.h:215-239 [getVoxelPtrByGlobalIndex]: which
    block is consulted, and which local voxel in it. *)
Definition layerAddressOfGlobalIndex (g : idx3) (vps : Z) : res (idx3 * idx3) :=
  rbind (of_opt (getBlockIndexFromGlobalVoxelIndex g (vps_inv_layer vps)))
    (fun b => rbind (getLocalFromGlobalVoxelIndex g vps) (fun v => Ok (b, v))).

(** ** block.h / block_inl.h *)

(** block.h:38, layer.h:37 [x_inv = 1.0 / x]: double division narrowed *)
Definition inv_of (s : f32) : f32 := f32_of_f64 (ddiv d1 (f64_of_f32 s)).
(** block.h:39, layer.h:39 [block_size = voxels_per_side * voxel_size] *)
Definition block_size_of (vps : Z) (s : f32) : f32 := fmul (f32_of_Z vps) s.

(** block_inl.h:13-27 [computeLinearIndexFromVoxelIndex] (size_t arithmetic,
    wraps modulo 2^64; the DCHECKs vanish in release builds) *)
Definition computeLinearIndexFromVoxelIndex (vps : Z) (i : idx3) : Z :=
  u64 (vx i + vps * (vy i + vz i * vps)).

(** block_inl.h:43-54 [computeVoxelIndexFromLinearIndex]: [int] arithmetic with
    [std::div] (truncating); division by zero is undefined. *)
Definition computeVoxelIndexFromLinearIndex (vps : Z) (l : Z) : option idx3 :=
  let rem := wrap32 l in
  let sq := wrap32 (u64 (vps * vps)) in
  let n := wrap32 vps in
  if (sq =? 0) || (n =? 0) then None
  else
    let z := Z.quot rem sq in
    let rem := Z.rem rem sq in
    Some (V3 (Z.rem rem n) (Z.quot rem n) z).

(** block_inl.h:57-71 [isValidVoxelIndex] *)
Definition isValidVoxelIndex (vps : Z) (i : idx3) : bool :=
  let ok c := negb ((c <? 0) || (wrap32 vps <=? c)) in
  ok (vx i) && ok (vy i) && ok (vz i).

(** block.h:150-155 [isValidLinearIndex] *)
Definition isValidLinearIndex (vps : Z) (l : Z) : bool := l <? u64 (vps * vps * vps).

(** block.h:62-67 [computeVoxelIndexFromCoordinates] *)
Definition computeVoxelIndexFromCoordinates (origin : pt3) (inv : f32) (c : pt3)
  : option idx3 := getGridIndexFromPoint (pt_sub c origin) inv.

(** block_inl.h:30-40 [computeTruncatedVoxelIndexFromCoordinates] *)
Definition clamp_axis (vps i : Z) : Z := Z.max (Z.min i (vps - 1)) 0.
Definition computeTruncatedVoxelIndexFromCoordinates (vps : Z) (origin : pt3)
  (inv : f32) (c : pt3) : option idx3 :=
  match computeVoxelIndexFromCoordinates origin inv c with
  | Some i => Some (map3 (clamp_axis vps) i)
  | None => None
  end.

(** block.h:86-88 [computeCoordinatesFromVoxelIndex] *)
Definition computeCoordinatesFromVoxelIndex (origin : pt3) (s : f32) (i : idx3) : pt3 :=
  pt_add origin (getCenterPointFromGridIndex i s).

(** block.h:157-159 [block_index]: recomputed from the stored origin *)
Definition block_index (vps : Z) (s : f32) (origin : pt3) : option idx3 :=
  getGridIndexFromOriginPoint origin (inv_of (block_size_of vps s)).

(** layer.h:133-145 [allocateNewBlock]: origin given to a fresh block *)
Definition new_block_origin (vps : Z) (s : f32) (i : idx3) : pt3 :=
  getOriginPointFromGridIndex i (block_size_of vps s).

(** layer.h:128-131 [computeBlockIndexFromCoordinates] *)
Definition computeBlockIndexFromCoordinates (vps : Z) (s : f32) (c : pt3) : option idx3 :=
  getGridIndexFromPoint c (inv_of (block_size_of vps s)).
