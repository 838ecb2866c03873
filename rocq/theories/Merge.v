(** Merging layers: /repo/voxblox/include/voxblox/integrator/merge_integration.h.
    Definitions only. *)
From Coq Require Import ZArith List Bool.
From Verif Require Import F32 Types Index Voxel Serialize Assoc Layer.
Import ListNotations.
Open Scope Z_scope.

(** merge_integration.h:38-53: the loop over the block indices of layer A.
    [src] is [*layer_A_ptr], the layer the blocks are read from. *)
Fixpoint merge_loop {k} (is : list idx3) (src lb : Layer k) : res (Layer k) :=
  match is with
  | [] => Ok lb
  | i :: is' =>
      let lb1 := match l_get lb i with Some _ => lb | None => allocateBlockPtrByIndex lb i end in
      match l_get src i, l_get lb1 i with
      | Some ba, Some bb =>
          rbind (mergeBlock bb ba) (fun nb =>
            merge_loop is' src (with_blocks lb1 (aset i nb (l_blocks lb1))))
      | _, _ => merge_loop is' src lb1
      end
  end.
(** merge_integration.h:20-54 [mergeLayerAintoLayerB]. [resampled] is the result
    of [resampleLayer(layer_A)], used when the layouts differ. The loop
    runs over the indices of layer A in both cases (line 38). *)
Definition mergeLayerAintoLayerB {k} (la resampled lb : Layer k) : res (Layer k) :=
  let src := if negb (feq (l_size la) (l_size lb)) || negb (l_vps la =? l_vps lb)
             then resampled else la in
  merge_loop (getAllAllocatedBlocks la) src lb.
