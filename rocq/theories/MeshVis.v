(** Meshes as markers and point clouds: voxblox_ros/include/voxblox_ros/mesh_vis.h:44-151, 241-324
    and conversions.h:26-43. Definitions only. *)
From Coq Require Import ZArith List Bool.
From Verif Require Import F32 Types Index Voxel Assoc Layer Update Ray Marching MeshInt MeshMsg ColorMap.
Import ListNotations.
Open Scope Z_scope.

(** mesh_vis.h:44-51 *)
Inductive ColorMode := CColor | CHeight | CNormals | CGray | CLambert | CLambertColor.
(** std_msgs/ColorRGBA: four floats *)
Record rgba : Type := MkRgba { ch_rgb : v3 f32; ch_a : f32 }.

(** conversions.h:26-33 [colorVoxbloxToMsg] *)
Definition colorVoxbloxToMsg (c : Color) : rgba :=
  MkRgba (V3 (channel_msg (cr c)) (channel_msg (cg c)) (channel_msg (cb c))) (channel_msg (ca c)).
(** conversions.h:35-43 [colorMsgToVoxblox]: a float times [255.0] is a double, narrowed
    to uint8_t; undefined outside 0..255 *)
Definition channel_back (x : f32) : option Z := to_uint8 (dtruncZ (dmul (f64_of_f32 x) (f64_of_Z 255))).
Definition colorMsgToVoxblox (m : rgba) : option Color :=
  obind (channel_back (vx (ch_rgb m))) (fun r => obind (channel_back (vy (ch_rgb m))) (fun g =>
  obind (channel_back (vz (ch_rgb m))) (fun b => obind (channel_back (ch_a m)) (fun a => Some (MkColor r g b a))))).

(** mesh_vis.h:73-76 [lambertShading] *)
Definition lambertShading (normal light color : pt3) : pt3 :=
  let f := fmax (dot3 normal light) f0 in map3 (fun c => fmul f c) color.
(** mesh_vis.h:83-85: [0.8f, -0.2f, 0.7f] and [-0.5f, 0.2f, 0.2f], normalised, and [0.2f] *)
Definition light_dir : pt3 := normalized3 (V3 (fbits 0x3f4ccccd) (fbits 0xbe4ccccd) (fbits 0x3f333333)).
Definition light_dir2 : pt3 := normalized3 (V3 (fbits 0xbf000000) (fbits 0x3e4ccccd) (fbits 0x3e4ccccd)).
Definition ambient : f32 := fbits 0x3e4ccccd.
(** mesh_vis.h:78-97 [lambertColorFromColorAndNormal] *)
Definition lambertColorFromColorAndNormal (c : Color) (normal : pt3) : rgba :=
  let color_pt := V3 (channel_msg (cr c)) (channel_msg (cg c)) (channel_msg (cb c)) in
  let s1 := lambertShading normal light_dir color_pt in
  let s2 := lambertShading normal light_dir2 color_pt in
  MkRgba (map3 (fun x => fmin x f1) (zip3 (fun a b => fadd (fadd a b) ambient) s1 s2)) f1.
(** mesh_vis.h:99-102 [lambertColorFromNormal] *)
Definition lambertColorFromNormal (normal : pt3) : rgba :=
  lambertColorFromColorAndNormal (MkColor 127 127 127 255) normal.
(** mesh_vis.h:104-112 [normalColorFromNormal]: in double, narrowed to float *)
Definition dhalf : f64 := f64_lit 1 (-1).
Definition normalColorFromNormal (normal : pt3) : rgba :=
  MkRgba (map3 (fun c => f32_of_f64 (dadd (dmul (f64_of_f32 c) dhalf) dhalf)) normal) f1.
(** mesh_vis.h:114-125 [heightColorFromVertex]; [None]: the rainbow of no number *)
Definition heightColorFromVertex (vertex : pt3) : option rgba :=
  let min_z := f64_of_Z (-1) in let max_z := f64_of_Z 10 in
  let t := f32_of_f64 (ddiv (dsub (f64_of_f32 (vz vertex)) min_z) (dsub max_z min_z)) in
  obind (rainbowColorMap (f64_of_f32 (fmin (fmax t f0) f1))) (fun c => Some (colorVoxbloxToMsg c)).

(** mesh_vis.h:127-151 [getVertexColor]; reading past the end of a list is undefined *)
Definition getVertexColor (m : mesh) (mode : ColorMode) (n : nat) : res rgba :=
  match mode with
  | CColor => match nth_error (m_colors m) n with Some c => Ok (colorVoxbloxToMsg c) | None => UB end
  | CHeight => match nth_error (m_vertices m) n with Some v => of_opt (heightColorFromVertex v) | None => UB end
  | CNormals => match nth_error (m_normals m) n with Some d => Ok (normalColorFromNormal d) | None => UB end
  | CLambert => match nth_error (m_normals m) n with Some d => Ok (lambertColorFromNormal d) | None => UB end
  | CLambertColor =>
      match nth_error (m_colors m) n, nth_error (m_normals m) n with
      | Some c, Some d => Ok (lambertColorFromColorAndNormal c d)
      | _, _ => UB
      end
  | CGray => Ok (MkRgba (V3 fhalf fhalf fhalf) f1)
  end.

(** mesh_vis.h:264-271 and 296-303: the CHECKs *)
Definition color_checks (mode : ColorMode) (m : mesh) : bool :=
  (match mode with CColor | CLambertColor => nonempty (m_colors m) | _ => true end) &&
  (match mode with CNormals | CLambert | CLambertColor => nonempty (m_normals m) | _ => true end).
(** the loop over the vertices from number [n] on, 273-279 and 305-319 *)
Fixpoint each_vertex {A} (put : mesh -> nat -> pt3 -> res A) (m : mesh) (n : nat) (vs : list pt3) : res (list A) :=
  match vs with
  | [] => Ok []
  | v :: vs' => rbind (put m n v) (fun a => rbind (each_vertex put m (S n) vs') (fun r => Ok (a :: r)))
  end.
(** the loop over the meshes, 257-280 and 289-320 *)
Fixpoint each_mesh {A} (put : mesh -> nat -> pt3 -> res A) (mode : ColorMode) (mm : mesh_map) : res (list A) :=
  match mm with
  | [] => Ok []
  | (_, m) :: mm' =>
      if nonempty (m_vertices m) then
        if color_checks mode m then
          rbind (each_vertex put m 0 (m_vertices m)) (fun a => rbind (each_mesh put mode mm') (fun r => Ok (a ++ r)))
        else Abort
      else each_mesh put mode mm'
  end.
(** mesh_vis.h:241-281 [fillMarkerWithMesh]: the points (doubles) and colours of the
    triangle list; header, scale and pose are constants *)
Definition fillMarkerWithMesh (mode : ColorMode) (mm : mesh_map) : res (list (v3 f64 * rgba)) :=
  each_mesh (fun m n v => rbind (getVertexColor m mode n) (fun c => Ok (map3 f64_of_f32 v, c))) mode mm.
(** mesh_vis.h:283-322 [fillPointcloudWithMesh]: position and colour (alpha is not set) *)
Definition fillPointcloudWithMesh (mode : ColorMode) (mm : mesh_map) : res (list (pt3 * (Z * Z * Z))) :=
  each_mesh (fun m n v => rbind (getVertexColor m mode n) (fun msg =>
    rbind (of_opt (colorMsgToVoxblox msg)) (fun c => Ok (v, (cr c, cg c, cb c))))) mode mm.
