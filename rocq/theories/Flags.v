(** Histories of calls on one TSDF layer, its meshes and its ESDF. Definitions only. *)
From Coq Require Import ZArith List Bool.
From Verif Require Import F32 Types Index Voxel Serialize Assoc Layer Threads Marching MeshInt Queue Planning Esdf.
Import ListNotations.
Open Scope Z_scope.

(** one voxel update of an integrator: tsdf_integrator.cc:88-134
    [allocateStorageAndGetVoxelPtr] finds or creates the block and sets all its
    flags, then [updateTsdfVoxel] (171-228) stores the voxel. A new block is
    kept aside and inserted at the end of the cloud (140-156); here it is
    inserted at once, which no other call can see. What the update computes is
    any function of the old voxel. *)
Definition integrate_voxel (l : Layer KTsdf) (g : idx3) (f : TsdfVoxel -> TsdfVoxel) : res (Layer KTsdf) :=
  rbind (of_opt (getBlockIndexFromGlobalVoxelIndex g (vps_inv_layer (l_vps l)))) (fun bi =>
    let l1 := set_block (allocateBlockPtrByIndex l bi) bi (set_updated upd_all) in
    rbind (voxel_ptr l1 g) (fun o =>
      match o with
      | None => Abort
      | Some a => rbind (vget l1 a) (fun v => Ok (vset (k := KTsdf) l1 a (f v)))
      end)).

(** the layers an application holds *)
Record world : Type := MkWorld { w_tsdf : Layer KTsdf; w_mesh : mesh_map; w_esdf : estate }.
Inductive call : Type :=
| CIntegrate (g : idx3) (f : TsdfVoxel -> TsdfVoxel)
| CRemove (i : idx3)
| CMesh (only_updated clear : bool)
| CEsdf (clear : bool)
| CEsdfBatch.
(** [fuel] bounds the iterations of the ESDF loops; a call that does not end within
    it ends the history (no result) *)
Definition do_call (mc : MeshConfig) (ec : econfig) (fuel : nat) (w : world) (k : call) : res world :=
  match k with
  | CIntegrate g f => rbind (integrate_voxel (w_tsdf w) g f) (fun l => Ok (MkWorld l (w_mesh w) (w_esdf w)))
  | CRemove i => Ok (MkWorld (removeBlock (w_tsdf w) i) (w_mesh w) (w_esdf w))
  | CMesh only clear =>
      rbind (generateMesh mc only clear (w_tsdf w) (w_mesh w)) (fun lm => Ok (MkWorld (fst lm) (snd lm) (w_esdf w)))
  | CEsdf clear =>
      rbind (updateFromTsdfLayer ec fuel clear (w_tsdf w) (w_esdf w)) (fun o =>
        match o with Some (l, e) => Ok (MkWorld l (w_mesh w) e) | None => Abort end)
  | CEsdfBatch =>
      rbind (updateFromTsdfLayerBatch ec fuel (w_tsdf w) (w_esdf w)) (fun o =>
        match o with Some e => Ok (MkWorld (w_tsdf w) (w_mesh w) e) | None => Abort end)
  end.
Fixpoint do_calls (mc : MeshConfig) (ec : econfig) (fuel : nat) (w : world) (ks : list call) : res world :=
  match ks with
  | [] => Ok w
  | k :: ks' => rbind (do_call mc ec fuel w k) (fun w1 => do_calls mc ec fuel w1 ks')
  end.
