(** Map bounds, /repo/voxblox/include/voxblox/utils/planning_utils_inl.h 138-169, and
    the block lookup by position, /repo/voxblox/include/voxblox/core/layer.h.
    Definitions only. *)
From Coq Require Import ZArith List Bool.
From Verif Require Import F32 Types Index Voxel Serialize Assoc Layer.
Import ListNotations.
Open Scope Z_scope.

(** 152-162: the first block initialises both indices, every further one is folded
    in with Eigen's component-wise [min] and [max] *)
Definition bounds_indices (bs : list idx3) : option (idx3 * idx3) :=
  match bs with
  | [] => None
  | b :: r => Some (fold_left (zip3 Z.min) r b, fold_left (zip3 Z.max) r b)
  end.
(** 140-169 [computeMapBoundsFromLayer]. Without blocks the two indices are read
    uninitialised, which is undefined. The sum of the upper bound is in float, the
    cast to double comes last. *)
Definition computeMapBoundsFromLayer {k} (l : Layer k) : res (v3 f64 * v3 f64) :=
  let bs := block_size_of (l_vps l) (l_size l) in
  match bounds_indices (getAllAllocatedBlocks l) with
  | None => UB
  | Some (lo, hi) =>
      Ok (map3 f64_of_f32 (getOriginPointFromGridIndex lo bs),
          map3 (fun c => f64_of_f32 (fadd c bs)) (getOriginPointFromGridIndex hi bs))
  end.
(** layer.h 105-112 [getBlockPtrByCoordinates]: [Ok None] is nullptr; an index that does
    not fit an int is undefined *)
Definition getBlockPtrByCoordinates {k} (l : Layer k) (p : pt3) : res (option (Block k)) :=
  rbind (of_opt (computeBlockIndexFromCoordinates (l_vps l) (l_size l) p)) (fun i => Ok (l_get l i)).
