(** Model of further operations of a mesh: recolouring, memory size (mesh.h, mesh_layer.h) and the conversion to a polygon mesh
    (voxblox_ros/mesh_pcl.h). *)
From Coq Require Import ZArith List Bool.
From Verif Require Import F32 Types Index Voxel Serialize Assoc Layer Marching MeshInt Ply.
Import ListNotations.
Open Scope Z_scope.

(** mesh.h:123-126 [colorizeMesh] *)
Definition colorizeMesh (m : mesh) (c : Color) : mesh :=
  MkMesh (m_vertices m) (m_indices m) (m_normals m) (repeat c (length (m_vertices m))) (m_origin m) (m_updated m).
(** mesh.h:62-74 [getMemorySize] (x86-64: vectors of 24 bytes; points of 12, colours of 4,
    indices of 8); the colours are counted by the number of vertices *)
Definition mesh_memory (m : mesh) : Z :=
  let nv := Z.of_nat (length (m_vertices m)) in
  u64 (24 + nv * 12 + (24 + Z.of_nat (length (m_normals m)) * 12) + (24 + nv * 4) + (24 + Z.of_nat (length (m_indices m)) * 8) + 4 + 12 + 1).
(** mesh_layer.h:279-292 *)
Definition mesh_layer_memory (mm : mesh_map) : Z := fold_left (fun s im => u64 (s + mesh_memory (snd im))) mm 8.

(** mesh_pcl.h:62-71: the indices in groups of three; [cur] is the group begun. Polygon
    indices are 32 bits wide. *)
Fixpoint polygons_from (cur : list Z) (is : list Z) : list (list Z) :=
  match is with
  | [] => []
  | i :: is' =>
      let cur' := cur ++ [u32 i] in
      if Nat.eqb (length cur') 3 then cur' :: polygons_from [] is' else polygons_from cur' is'
  end.
(** mesh_pcl.h:40-82 [toPCLPolygonMesh]: points and polygons of the exported mesh (frame and
    binary layout of the cloud are not modelled) *)
Definition toPCLPolygonMesh (mm : mesh_map) (simplify : bool) (threshold : f32) : res (list pt3 * list (list Z)) :=
  rbind (convertMeshLayerToMesh simplify threshold mm (new_mesh (V3 f0 f0 f0))) (fun bm =>
  Ok (m_vertices (snd bm), polygons_from [] (m_indices (snd bm)))).
