(** Exporting a layer as a PLY file: /repo/voxblox/include/voxblox/io/sdf_ply.h. Definitions only. *)
From Coq Require Import String ZArith List Bool.
From Verif Require Import F32 Types Voxel Layer Marching MeshInt Ply VoxCloud.
Import ListNotations.
Open Scope Z_scope.

(** mesh_integrator.h:49-52: the default configuration, [use_color = true], [min_weight = 1e-4] *)
Definition default_mesh_config : MeshConfig := MkMeshConfig true (fbits 0x38d1b717).
(** sdf_ply.h:127-151 [convertLayerToMesh]: a new mesh layer, all blocks meshed without clearing flags, then one mesh;
    the number of threads of the integrator is left out (C62) *)
Definition convertLayerToMesh {k} (cfg : MeshConfig) (l : Layer k) (connected : bool) (threshold : f32) (out : mesh)
  : res (bool * mesh) :=
  rbind (generateMesh cfg false false l []) (fun lm => convertMeshLayerToMesh connected threshold (snd lm) out).
(** sdf_ply.h:152-160: with the default configuration; the default threshold is 1e-10 *)
Definition convertLayerToMesh_default {k} (l : Layer k) (connected : bool) (threshold : f32) (out : mesh) : res (bool * mesh) :=
  convertLayerToMesh default_mesh_config l connected threshold out.

(** sdf_ply.cc: [getColorFromVoxel] is specialized for TSDF and ESDF voxels; for other layers the program does not link *)
Definition getColorFromVoxel (k : vkind) : f32 -> f32 -> vox k -> pt3 -> res (option Color) :=
  match k return f32 -> f32 -> vox k -> pt3 -> res (option Color) with
  | KTsdf => getColorFromTsdfVoxel
  | KEsdf => getColorFromEsdfVoxel
  | _ => fun _ _ _ _ => UB
  end.
(** sdf_ply.h:17-25 [PlyOutputTypes] as its integer value, so that values outside the enumeration are also covered:
    0 kSdfColoredDistanceField, 1 kSdfIsosurface, 2 kSdfIsosurfaceConnected.
    sdf_ply.h:168-209 [outputLayerAsPly]; [opens] says whether the file can be opened, the result is the file, [None] for
    [false] *)
Definition outputLayerAsPly {k} (opens : bool) (filename : string) (type : Z) (l : Layer k) (range max : f32) : res (option file) :=
  if String.eqb filename "" then Abort
  else if type =? 0 then
    rbind (convertVoxelGridToPointCloud (getColorFromVoxel k) l range max []) (fun r =>
      if fst r then outputMeshAsPly opens (MkMesh (map fst (snd r)) [] [] (map snd (snd r)) (V3 f0 f0 f0) false) else Ok None)
  else if type =? 1 then
    rbind (convertLayerToMesh_default l false default_threshold (new_mesh (V3 f0 f0 f0))) (fun r =>
      if fst r then outputMeshAsPly opens (snd r) else Ok None)
  else if type =? 2 then
    rbind (convertLayerToMesh_default l true default_threshold (new_mesh (V3 f0 f0 f0))) (fun r =>
      if fst r then outputMeshAsPly opens (snd r) else Ok None)
  else Abort.
