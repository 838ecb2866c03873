(** The mesh layer as a container: /repo/voxblox/include/voxblox/mesh/mesh_layer.h:31-163,277-298.
    Definitions only. A pointer is used where it is obtained; what happens through a pointer
    kept while its mesh is removed is not modelled. *)
From Coq Require Import ZArith List Bool.
From Verif Require Import F32 Types Index Voxel Assoc Marching MeshInt.
Import ListNotations.
Open Scope Z_scope.

(** a mesh is addressed by the index of its block or by a point in it *)
Inductive place := AtIndex (i : idx3) | AtPoint (p : pt3).
(** mesh_layer.h:31-32 [block_size_inv_(1.0 / block_size)] and 107-111
    [computeBlockIndexFromCoordinates]; an index that does not fit an int is undefined *)
Definition mesh_block_of (bs : f32) (x : place) : res idx3 :=
  match x with AtIndex i => Ok i | AtPoint p => of_opt (getGridIndexFromPoint p (inv_of bs)) end.
(** 113-122 [allocateNewBlock]: [insert] keeps a mesh that is there (its DCHECK vanishes) *)
Definition allocateNewMesh (bs : f32) (i : idx3) (mm : mesh_map) : mesh_map :=
  ainsert i (new_mesh (map3 (fun c => fmul (f32_of_Z c) bs) i)) mm.
(** 78-86 [allocateMeshPtrByIndex] *)
Definition allocateMeshPtr (bs : f32) (i : idx3) (mm : mesh_map) : mesh_map :=
  match alookup i mm with Some _ => mm | None => allocateNewMesh bs i mm end.
(** 144-151 [getAllAllocatedMeshes], 153-161 [getAllUpdatedMeshes] *)
Definition getAllAllocatedMeshes (mm : mesh_map) : list idx3 := akeys mm.
Definition getAllUpdatedMeshes (mm : mesh_map) : list idx3 := map fst (filter (fun kv => m_updated (snd kv)) mm).

(** a program that uses a mesh layer *)
Inductive mop :=
| MAllocate (x : place)               (* allocateMeshPtrByIndex / ByCoordinates *)
| MAllocateNew (x : place)            (* allocateNewBlock / ByCoordinates *)
| MRemove (x : place)                 (* removeMesh / ByCoordinates *)
| MGet (x : place)                    (* getMeshPtrByIndex / ByCoordinates *)
| MRef (i : idx3)                     (* getMeshByIndex *)
| MEdit (x : place) (f : mesh -> mesh) (* a change through the pointer, if it is not null *)
| MClear                              (* clear *)
| MClearDistant (c : pt3) (d : f64)   (* clearDistantMesh *)
| MAll | MUpdated | MCount.           (* getAllAllocatedMeshes, getAllUpdatedMeshes, getNumberOfAllocatedMeshes *)
(** what the program sees: a mesh or null, a list of indices, a number *)
Inductive mobs := ONone | OMesh (m : option mesh) | OList (is : list idx3) | OCount (n : Z).
Definition mop_step (bs : f32) (mm : mesh_map) (o : mop) : res (mesh_map * mobs) :=
  match o with
  | MAllocate x => rbind (mesh_block_of bs x) (fun i => let mm' := allocateMeshPtr bs i mm in Ok (mm', OMesh (alookup i mm')))
  | MAllocateNew x => rbind (mesh_block_of bs x) (fun i => let mm' := allocateNewMesh bs i mm in Ok (mm', OMesh (alookup i mm')))
  | MRemove x => rbind (mesh_block_of bs x) (fun i => Ok (aerase i mm, ONone))
  | MGet x => rbind (mesh_block_of bs x) (fun i => Ok (mm, OMesh (alookup i mm)))
  | MRef i => match alookup i mm with Some m => Ok (mm, OMesh (Some m)) | None => Abort end
  | MEdit x f => rbind (mesh_block_of bs x) (fun i =>
                   match alookup i mm with Some m => Ok (aset i (f m) mm, ONone) | None => Ok (mm, ONone) end)
  | MClear => Ok ([], ONone)
  | MClearDistant c d => Ok (clearDistantMesh c d mm, ONone)
  | MAll => Ok (mm, OList (getAllAllocatedMeshes mm))
  | MUpdated => Ok (mm, OList (getAllUpdatedMeshes mm))
  | MCount => Ok (mm, OCount (Z.of_nat (length mm)))
  end.
Fixpoint mop_run (bs : f32) (mm : mesh_map) (ops : list mop) : res (mesh_map * list mobs) :=
  match ops with
  | [] => Ok (mm, [])
  | o :: os => rbind (mop_step bs mm o) (fun r => rbind (mop_run bs (fst r) os) (fun rs => Ok (fst rs, snd r :: snd rs)))
  end.
