(** Mesh messages: /repo/voxblox_ros/include/voxblox_ros/mesh_vis.h:104-230, conversions.h:26-33
    and the receiving side in /repo/voxblox_rviz_plugin/src/voxblox_mesh_visual.cc:30-140.
    Definitions only. *)
From Coq Require Import ZArith List Bool.
From Verif Require Import F32 Types Index Voxel Assoc Layer Planning Marching MeshInt.
Import ListNotations.
Open Scope Z_scope.

(** voxblox_msgs/MeshBlock.msg, voxblox_msgs/Mesh.msg (header left out) *)
Record mesh_block : Type := MkMB {
  mb_index : idx3; mb_x : list Z; mb_y : list Z; mb_z : list Z; mb_r : list Z; mb_g : list Z; mb_b : list Z }.
Record mesh_msg : Type := MkMM { mm_edge : f32; mm_blocks : list mesh_block }.
(** mesh_vis.h:39-47 [ColorMode]; kHeight, kLambert and kLambertColor are not modelled *)
Inductive color_mode := kColor | kNormals | kGray.

Definition f65535 : f32 := f32_of_Z 65535.
Definition fhalf : f32 := f32_lit 1 (-1).
(** mesh_vis.h:193-195: one axis of the normalised vertex *)
Definition normalize_axis (inv v : f32) (i : Z) : f32 := fmul fhalf (fsub (fmul inv v) (f32_of_Z i)).
(** 202-207: [65535 * n] narrowed to uint16_t *)
Definition quantize (n : f32) : option Z := to_uint16 (ftruncZ (fmul f65535 n)).
(** 193-207: one vertex; both CHECKs abort *)
Definition encode_vertex (bs : f32) (i : idx3) (v : pt3) : res idx3 :=
  let n := V3 (normalize_axis (inv_of bs) (vx v) (vx i)) (normalize_axis (inv_of bs) (vy v) (vy i))
              (normalize_axis (inv_of bs) (vz v) (vz i)) in
  if fle (sqnorm n) f1 then
    if fge (vx n) f0 && fge (vy n) f0 && fge (vz n) f0 then of_opt (seq3 (map3 quantize n)) else Abort
  else Abort.
(** conversions.h:26-33 and mesh_vis.h:212-217: [255 * (c / 255.0)] narrowed to uint8_t *)
Definition encode_channel (c : f32) : option Z := to_uint8 (ftruncZ (fmul (f32_of_Z 255) c)).
Definition channel_msg (c : Z) : f32 := f32_of_f64 (ddiv (f64_of_Z c) (f64_of_Z 255)).
(** mesh_vis.h:124-151 [getVertexColor], then 212-217 *)
Definition encode_color (mode : color_mode) (m : mesh) (n : nat) : res (list idx3) :=
  match mode with
  | kNormals => Ok []
  | kColor =>
      match nth_error (m_colors m) n with
      | None => UB
      | Some c => rbind (of_opt (seq3 (map3 encode_channel
                     (V3 (channel_msg (cr c)) (channel_msg (cg c)) (channel_msg (cb c))))))
                   (fun rgb => Ok [rgb])
      end
  | kGray => rbind (of_opt (seq3 (map3 encode_channel (V3 fhalf fhalf fhalf)))) (fun rgb => Ok [rgb])
  end.
(** 184-219: the loop over the vertices, from number [n] *)
Fixpoint encode_vertices (mode : color_mode) (bs : f32) (i : idx3) (m : mesh) (n : nat) (vs : list pt3)
  : res (list idx3 * list idx3) :=
  match vs with
  | [] => Ok ([], [])
  | v :: vs' =>
      rbind (encode_vertex bs i v) (fun q =>
      rbind (encode_color mode m n) (fun c =>
      rbind (encode_vertices mode bs i m (S n) vs') (fun r => Ok (q :: fst r, c ++ snd r))))
  end.
Definition encode_block (mode : color_mode) (bs : f32) (i : idx3) (m : mesh) : res mesh_block :=
  rbind (encode_vertices mode bs i m 0 (m_vertices m)) (fun r =>
    Ok (MkMB i (map vx (fst r)) (map vy (fst r)) (map vz (fst r)) (map vx (snd r)) (map vy (snd r)) (map vz (snd r)))).
(** mesh_layer.h:153-161 *)
Definition getAllUpdatedMeshes (mm : mesh_map) : list idx3 :=
  map fst (filter (fun kv => m_updated (snd kv)) mm).
Definition sent (m : mesh) : mesh :=
  MkMesh (m_vertices m) (m_indices m) (m_normals m) (m_colors m) (m_origin m) false.
(** 168-229: the loop over the updated meshes; an empty mesh is erased once sent *)
Fixpoint encode_blocks (mode : color_mode) (bs : f32) (is : list idx3) (mm : mesh_map)
  : res (list mesh_block * mesh_map) :=
  match is with
  | [] => Ok ([], mm)
  | i :: is' =>
      match alookup i mm with
      | None => UB
      | Some m =>
          rbind (encode_block mode bs i m) (fun b =>
          rbind (encode_blocks mode bs is' (if nonempty (m_vertices m) then aset i (sent m) mm else aerase i mm))
            (fun r => Ok (b :: fst r, snd r)))
      end
  end.
(** mesh_vis.h:153-230 [generateVoxbloxMeshMsg] *)
Definition generateVoxbloxMeshMsg (mode : color_mode) (bs : f32) (mm : mesh_map) : res (mesh_msg * mesh_map) :=
  rbind (encode_blocks mode bs (getAllUpdatedMeshes mm) mm) (fun r => Ok (MkMM bs (fst r), snd r)).

(** ** The receiving side *)
(** voxblox_mesh_visual.cc:45-58: [2.0f / 65535], one axis of a vertex *)
Definition point_conv_factor : f32 := fdiv (f32_of_Z 2) f65535.
Definition decode_axis (edge : f32) (i q : Z) : f32 :=
  fmul (fadd (fmul (f32_of_Z q) point_conv_factor) (f32_of_Z i)) edge.
Definition decode_vertex (edge : f32) (i q : idx3) : pt3 :=
  V3 (decode_axis edge (vx i) (vx q)) (decode_axis edge (vy i) (vy q)) (decode_axis edge (vz i) (vz q)).
Fixpoint zip3l (xs ys zs : list Z) : option (list idx3) :=
  match xs, ys, zs with
  | [], _, _ => Some []
  | x :: xs, y :: ys, z :: zs => match zip3l xs ys zs with Some l => Some (V3 x y z :: l) | None => None end
  | _, _, _ => None
  end.
(** 40-62: the vertices of a block; reading past a short array is undefined *)
Definition decode_block (edge : f32) (b : mesh_block) : res (list pt3) :=
  rbind (of_opt (zip3l (mb_x b) (mb_y b) (mb_z b))) (fun qs => Ok (map (decode_vertex edge (mb_index b)) qs)).
(** what a viewer shows: the vertices of each block, before [createConnectedMesh] merges equal
    ones (C39). 105-131: an empty block removes the shown object, otherwise it is replaced; a
    block never shown before gets an object even if it is empty *)
Definition viewer := amap (list pt3).
Definition show_block (edge : f32) (w : viewer) (b : mesh_block) : res viewer :=
  rbind (decode_block edge b) (fun ps =>
    Ok (match alookup (mb_index b) w with
        | Some _ => if nonempty (mb_x b) then aset (mb_index b) ps w else aerase (mb_index b) w
        | None => ainsert (mb_index b) ps w
        end)).
(** 30-140 [setMessage] *)
Definition setMessage (msg : mesh_msg) (w : viewer) : res viewer :=
  rfold (show_block (mm_edge msg)) (mm_blocks msg) w.
