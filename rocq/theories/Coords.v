(** Access to a layer by coordinates:
    /repo/voxblox/include/voxblox/core/layer.h:105-123,147-150,166-168,241-257 and
    core/block.h:78-81,131-137. Definitions only. *)
From Coq Require Import ZArith List Bool.
From Verif Require Import F32 Types Index Voxel Assoc Layer Threads Planning.
Import ListNotations.
Open Scope Z_scope.

(** layer.h:117-123 [allocateBlockPtrByCoordinates]; an index that does not fit an int is undefined *)
Definition allocateByCoordinates {k} (l : Layer k) (p : pt3) : res (Layer k) :=
  rbind (of_opt (computeBlockIndexFromCoordinates (l_vps l) (l_size l) p)) (fun i => Ok (allocateBlockPtrByIndex l i)).
(** layer.h:147-150 [allocateNewBlockByCoordinates] *)
Definition allocateNewByCoordinates {k} (l : Layer k) (p : pt3) : res (Layer k) :=
  rbind (of_opt (computeBlockIndexFromCoordinates (l_vps l) (l_size l) p)) (fun i => Ok (allocateNewBlock l i)).
(** layer.h:166-168 [removeBlockByCoordinates] *)
Definition removeByCoordinates {k} (l : Layer k) (p : pt3) : res (Layer k) :=
  rbind (of_opt (computeBlockIndexFromCoordinates (l_vps l) (l_size l) p)) (fun i => Ok (removeBlock l i)).
(** layer.h:241-257 [getVoxelPtrByCoordinates] with block.h:78-81,131-137: the block and
    the place in its array; [Ok None] is nullptr *)
Definition voxelPtrByCoordinates {k} (l : Layer k) (p : pt3) : res (option (idx3 * nat)) :=
  rbind (of_opt (computeBlockIndexFromCoordinates (l_vps l) (l_size l) p)) (fun i =>
    match l_get l i with
    | None => Ok None
    | Some b =>
        rbind (of_opt (computeTruncatedVoxelIndexFromCoordinates (b_vps b) (b_origin b) (inv_of (b_size b)) p)) (fun v =>
          Ok (Some (i, Z.to_nat (computeLinearIndexFromVoxelIndex (b_vps b) v))))
    end).
(** reading and writing through the pointer; outside the array it is undefined *)
Definition load_ptr {k} (l : Layer k) (a : idx3 * nat) : res (vox k) :=
  match l_get l (fst a) with Some b => of_opt (nth_error (b_voxels b) (snd a)) | None => UB end.
Definition store_ptr {k} (l : Layer k) (a : idx3 * nat) (v : vox k) : res (Layer k) :=
  rbind (load_ptr l a) (fun _ => Ok (set_block l (fst a) (fun b => set_voxels (set_th (snd a) v (b_voxels b)) b))).

(** a program that uses a layer by coordinates, and by global index *)
Inductive cop (k : vkind) :=
| CAllocate (p : pt3) | CAllocateNew (p : pt3) | CRemove (p : pt3)
| CWrite (p : pt3) (v : vox k) | CRead (p : pt3) | CReadIndex (g : idx3).
Arguments CAllocate {k}. Arguments CAllocateNew {k}. Arguments CRemove {k}. Arguments CWrite {k}. Arguments CRead {k}. Arguments CReadIndex {k}.
(** one step: the layer, and what a read or a write saw (a write: the voxel it overwrote) *)
Definition cop_step {k} (l : Layer k) (o : cop k) : res (Layer k * option (vox k)) :=
  match o with
  | CAllocate p => rbind (allocateByCoordinates l p) (fun l' => Ok (l', None))
  | CAllocateNew p => rbind (allocateNewByCoordinates l p) (fun l' => Ok (l', None))
  | CRemove p => rbind (removeByCoordinates l p) (fun l' => Ok (l', None))
  | CWrite p v =>
      rbind (voxelPtrByCoordinates l p) (fun a =>
        match a with
        | None => Ok (l, None)
        | Some a => rbind (load_ptr l a) (fun x => rbind (store_ptr l a v) (fun l' => Ok (l', Some x)))
        end)
  | CRead p =>
      rbind (voxelPtrByCoordinates l p) (fun a =>
        match a with None => Ok (l, None) | Some a => rbind (load_ptr l a) (fun x => Ok (l, Some x)) end)
  | CReadIndex g => rbind (getVoxelByGlobalIndex l g) (fun x => Ok (l, x))
  end.
Fixpoint cop_run {k} (l : Layer k) (ops : list (cop k)) : res (Layer k * list (option (vox k))) :=
  match ops with
  | [] => Ok (l, [])
  | o :: os => rbind (cop_step l o) (fun r => rbind (cop_run (fst r) os) (fun rs => Ok (fst rs, snd r :: snd rs)))
  end.
