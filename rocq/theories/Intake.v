(** From a point cloud message to points and colours:
    voxblox_ros/src/tsdf_server.cc:179-252, 407-414 and voxblox_ros/include/voxblox_ros/conversions.h:97-150. *)
From Coq Require Import ZArith String List Bool.
From Verif Require Import F32 Types Index Voxel Layer ColorMap.
Import ListNotations.
Open Scope Z_scope.

(** sensor_msgs/PointCloud2 as [pcl::fromROSMsg] reads it: the names of the fields and
    the points. A point keeps a place for every field the server may ask for; the
    parsing of the byte buffer (PCL) is not modelled. *)
Record pcl_point : Type := MkPcl { p_pos : v3 f32; p_color : Color; p_intensity : f32 }.
Record cloud_msg : Type := MkCloud { c_fields : list string; c_points : list pcl_point }.

(** tsdf_server.cc:195-209 [getServerConfigFromRosParam]: the colour maps by name; an
    unknown name keeps the constructor's rainbow (line 31). [setMaxValue] sets the upper
    end, the lower end stays 0 (color_maps.h:14). *)
Definition color_lookup (name : string) (max_value : f32) (value : f32) : option Color :=
  if String.eqb name "rainbow" then rainbow f0 max_value value
  else if String.eqb name "inverse_rainbow" then inverse_rainbow f0 max_value value
  else if String.eqb name "grayscale" then grayscale f0 max_value value
  else if String.eqb name "inverse_grayscale" then inverse_grayscale f0 max_value value
  else if String.eqb name "ironbow" then ironbow f0 max_value value
  else rainbow f0 max_value value.

(** conversions.h:97-101 [isPointFinite] *)
Definition isPointFinite (p : pcl_point) : bool :=
  ffin (vx (p_pos p)) && ffin (vy (p_pos p)) && ffin (vz (p_pos p)).
(** the three PCL point types *)
Inductive pcl_type := XYZRGB | XYZI | XYZ.
(** conversions.h:107-123 [convertColor] *)
Definition convertColor (t : pcl_type) (lookup : f32 -> option Color) (p : pcl_point) : option Color :=
  match t with
  | XYZRGB => Some (p_color p)
  | XYZI => lookup (p_intensity p)
  | XYZ => lookup f0
  end.
(** conversions.h:126-146 [convertPointcloud]: appends to the two lists *)
Fixpoint convertPointcloud (t : pcl_type) (lookup : f32 -> option Color) (ps : list pcl_point)
  (points : list (v3 f32)) (colors : list Color) : res (list (v3 f32) * list Color) :=
  match ps with
  | [] => Ok (points, colors)
  | p :: ps' =>
      if isPointFinite p then
        rbind (of_opt (convertColor t lookup p)) (fun c =>
        convertPointcloud t lookup ps' (points ++ [p_pos p]) (colors ++ [c]))
      else convertPointcloud t lookup ps' points colors
  end.

(** tsdf_server.cc:217-227: the scan over the field names *)
Fixpoint scan_fields (fs : list string) (color intensity : bool) : bool * bool :=
  match fs with
  | [] => (color, intensity)
  | f :: fs' => if String.eqb f "rgb" then scan_fields fs' true intensity
                else if String.eqb f "intensity" then scan_fields fs' color true
                else scan_fields fs' color intensity
  end.
(** tsdf_server.cc:229-252: what [processPointCloudMessageAndInsert] makes of the message *)
Definition read_cloud (lookup : f32 -> option Color) (m : cloud_msg) : res (list (v3 f32) * list Color) :=
  let (color, intensity) := scan_fields (c_fields m) false false in
  convertPointcloud (if color then XYZRGB else if intensity then XYZI else XYZ) lookup (c_points m) [] [].
(** tsdf_server.cc:229-252 and 407-411, without ICP (C65): what reaches the integrator,
    after the CHECK on the two lengths *)
Definition integrated_cloud (lookup : f32 -> option Color) (m : cloud_msg) : res (list (v3 f32 * Color)) :=
  rbind (read_cloud lookup m) (fun pc =>
    if Nat.eqb (length (fst pc)) (length (snd pc)) then Ok (combine (fst pc) (snd pc)) else Abort).
