(** Clouds of points that show the voxels of a layer:
    /repo/voxblox_ros/include/voxblox_ros/ptcloud_vis.h and
    /repo/voxblox/include/voxblox/io/sdf_ply.h, src/io/sdf_ply.cc. Definitions only. *)
From Coq Require Import ZArith List Bool.
From Flocq Require Import IEEE754.Binary IEEE754.Bits.
From Verif Require Import F32 Types Index Voxel Layer Ray MeshInt Slice ColorMap Ply.
Import ListNotations.
Open Scope Z_scope.

Section Loops.
  Context {k : vkind} {A : Type}.
  (** the function passed in: [Some a] is [true] with the colour or intensity [a]. Functions that stop the program are
      possible ([res]) *)
  Variable vis : vox k -> pt3 -> res (option A).
  (** ptcloud_vis.h:74-89 (and 110-123, 153-168): the voxels of a block by linear index *)
  Fixpoint cloud_voxels (b : Block k) (lins : list nat) : res (list (pt3 * A)) :=
    match lins with
    | [] => Ok []
    | lin :: lins' =>
        rbind (coordinates_of b lin) (fun coord =>
        rbind (of_opt (nth_error (b_voxels b) lin)) (fun v =>
        rbind (vis v coord) (fun o =>
        rbind (cloud_voxels b lins') (fun rest =>
        Ok (match o with Some a => (coord, a) :: rest | None => rest end)))))
    end.
  Fixpoint cloud_blocks (l : Layer k) (blocks : list idx3) : res (list (pt3 * A)) :=
    match blocks with
    | [] => Ok []
    | i :: blocks' =>
        match l_get l i with
        | None => Abort
        | Some b =>
            rbind (cloud_voxels b (seq 0 (Z.to_nat (l_vps l * l_vps l * l_vps l)))) (fun c =>
            rbind (cloud_blocks l blocks') (fun rest => Ok (c ++ rest)))
        end
    end.
  (** ptcloud_vis.h:54-91 and 94-127 [createColorPointcloudFromLayer]: the cloud is cleared first. 131-174
      [createOccupancyBlocksFromLayer] is the same loop; it adds one marker with the points (and a colour by height,
      not modelled) to the array *)
  Definition createColorPointcloudFromLayer (l : Layer k) : res (list (pt3 * A)) :=
    cloud_blocks l (getAllAllocatedBlocks l).

  (** sdf_ply.h:92-112: the voxels of a block by x, then y, then z *)
  Fixpoint grid_voxels (b : Block k) (vs : list idx3) : res (list (pt3 * A)) :=
    match vs with
    | [] => Ok []
    | i :: vs' =>
        rbind (getVoxelByVoxelIndex b i) (fun v =>
        let coord := computeCoordinatesFromVoxelIndex (b_origin b) (b_size b) i in
        rbind (vis v coord) (fun o =>
        rbind (grid_voxels b vs') (fun rest =>
        Ok (match o with Some a => (coord, a) :: rest | None => rest end))))
    end.
  Definition grid_order (vps : Z) : list idx3 :=
    let r := map Z.of_nat (seq 0 (Z.to_nat vps)) in
    flat_map (fun x => flat_map (fun y => map (fun z => V3 x y z) r) r) r.
  Fixpoint grid_blocks (l : Layer k) (blocks : list idx3) : res (list (pt3 * A)) :=
    match blocks with
    | [] => Ok []
    | i :: blocks' =>
        match l_get l i with
        | None => Abort
        | Some b =>
            rbind (grid_voxels b (grid_order (b_vps b))) (fun c =>
            rbind (grid_blocks l blocks') (fun rest => Ok (c ++ rest)))
        end
    end.
End Loops.

(** *** which voxels are shown *)
Definition milli : f32 := fbits 0x3a83126f. (* 1e-3 as float *)
Definition when {A} (b : bool) (a : A) : res (option A) := Ok (if b then Some a else None).
(** ptcloud_vis.h:177-189 [visualizeNearSurfaceTsdfVoxels]; the distance is converted to double *)
Definition vis_near_surface (d : f64) (v : TsdfVoxel) (_ : pt3) : res (option Color) :=
  when (fgt (t_weight v) f0 && dlt (f64_of_f32 (fabs (t_distance v))) d) (t_color v).
(** ptcloud_vis.h:191-200 [visualizeTsdfVoxels] *)
Definition vis_tsdf (v : TsdfVoxel) (_ : pt3) : res (option Color) := when (fgt (t_weight v) f0) (t_color v).
(** ptcloud_vis.h:202-212 [visualizeDistanceIntensityTsdfVoxels]; the intensity is a double and stored as a float: the
    distance itself *)
Definition vis_distance_tsdf (v : TsdfVoxel) (_ : pt3) : res (option f32) := when (fgt (t_weight v) milli) (t_distance v).
(** ptcloud_vis.h:214-225 [visualizeDistanceIntensityTsdfVoxelsNearSurface] *)
Definition vis_distance_near (d : f64) (v : TsdfVoxel) (_ : pt3) : res (option f32) :=
  when (fgt (t_weight v) milli && dlt (f64_of_f32 (fabs (t_distance v))) d) (t_distance v).
(** ptcloud_vis.h:233-234, 272-273: [std::abs(coord(i) - free_plane_val) <= voxel_size / 2.0 + kFloatEpsilon], the left
    side a float, the right side a double *)
Definition in_slice (axis : nat) (plane s : f32) (coord : pt3) : bool :=
  dle (f64_of_f32 (fabs (fsub (get3 axis coord) plane)))
      (dadd (ddiv (f64_of_f32 s) (f64_of_Z 2)) (f64_of_f32 kEpsilon)).
(** ptcloud_vis.h:227-241 [visualizeDistanceIntensityTsdfVoxelsSlice] *)
Definition vis_tsdf_slice (axis : nat) (plane s : f32) (v : TsdfVoxel) (coord : pt3) : res (option f32) :=
  when (in_slice axis plane s coord && fgt (t_weight v) milli) (t_distance v).
(** ptcloud_vis.h:243-252 [visualizeDistanceIntensityEsdfVoxels] *)
Definition vis_esdf (v : EsdfVoxel) (_ : pt3) : res (option f32) := when (e_observed v) (e_distance v).
(** ptcloud_vis.h:254-265 [visualizeIntensityVoxels] *)
Definition vis_intensity (v : IntensityVoxel) (_ : pt3) : res (option f32) := when (fgt (i_weight v) milli) (i_intensity v).
(** ptcloud_vis.h:267-280 [visualizeDistanceIntensityEsdfVoxelsSlice] *)
Definition vis_esdf_slice (axis : nat) (plane s : f32) (v : EsdfVoxel) (coord : pt3) : res (option f32) :=
  when (in_slice axis plane s coord && e_observed v) (e_distance v).
(** ptcloud_vis.h:282-290 [visualizeOccupiedTsdfVoxels] *)
Definition vis_occupied_tsdf (d : f32) (v : TsdfVoxel) (_ : pt3) : res (option unit) :=
  when (fgt (t_weight v) milli && fle (t_distance v) d) tt.
(** ptcloud_vis.h:292-300 [visualizeFreeEsdfVoxels] *)
Definition vis_free_esdf (d : f32) (v : EsdfVoxel) (_ : pt3) : res (option f32) :=
  when (e_observed v && fge (e_distance v) d) (e_distance v).
(** ptcloud_vis.h:302-311 [visualizeOccupiedOccupancyVoxels]; the threshold is log(0.7f / (1 - 0.7f)) as a float, here
    correctly rounded (the library's log may differ in the last bit) *)
Definition log_odds_07 : f32 := fbits 0x3f58e882.
Definition vis_occupied_occ (v : OccupancyVoxel) (_ : pt3) : res (option unit) := when (fgt (o_log v) log_odds_07) tt.

(** ptcloud_vis.h:317-391: the functions for the kinds of layers *)
Definition createSurfacePointcloudFromTsdfLayer (l : Layer KTsdf) (d : f64) :=
  createColorPointcloudFromLayer (k := KTsdf) (vis_near_surface d) l.
Definition createPointcloudFromTsdfLayer (l : Layer KTsdf) := createColorPointcloudFromLayer (k := KTsdf) vis_tsdf l.
Definition createDistancePointcloudFromTsdfLayer (l : Layer KTsdf) :=
  createColorPointcloudFromLayer (k := KTsdf) vis_distance_tsdf l.
Definition createSurfaceDistancePointcloudFromTsdfLayer (l : Layer KTsdf) (d : f64) :=
  createColorPointcloudFromLayer (k := KTsdf) (vis_distance_near d) l.
Definition createDistancePointcloudFromEsdfLayer (l : Layer KEsdf) := createColorPointcloudFromLayer (k := KEsdf) vis_esdf l.
Definition createFreePointcloudFromEsdfLayer (l : Layer KEsdf) (d : f32) :=
  createColorPointcloudFromLayer (k := KEsdf) (vis_free_esdf d) l.
Definition createIntensityPointcloudFromIntensityLayer (l : Layer KInt) :=
  createColorPointcloudFromLayer (k := KInt) vis_intensity l.
(** ptcloud_vis.h:431-440: the voxel size is passed as the distance *)
Definition createOccupancyBlocksFromTsdfLayer (l : Layer KTsdf) :=
  createColorPointcloudFromLayer (k := KTsdf) (vis_occupied_tsdf (l_size l)) l.
(** ptcloud_vis.h:442-450 *)
Definition createOccupancyBlocksFromOccupancyLayer (l : Layer KOcc) :=
  createColorPointcloudFromLayer (k := KOcc) vis_occupied_occ l.

(** [std::remainder] of two floats with a positive second argument: x - n y with n the integer nearest to x / y, ties to
    even; the result is exact. Not modelled: other second arguments (a voxel size is positive) *)
Definition fremainder (x y : f32) : f32 :=
  match x, y with
  | B754_zero _ _ s, B754_finite _ _ false _ _ _ => x
  | B754_finite _ _ sx mx ex _, B754_finite _ _ false my ey _ =>
      let e := Z.min ex ey in
      let X := (if sx then -1 else 1) * Zpos mx * 2 ^ (ex - e) in
      let Y := Zpos my * 2 ^ (ey - e) in
      binary_normalize 24 128 Hprec32 Hmax32 mode_NE (X - quot_even X Y * Y) e sx
  | _, _ => nan32
  end.
(** ptcloud_vis.h:397-403, 416-422: the plane is moved up by half a voxel (in double precision, stored as a float) *)
Definition slice_plane (s plane : f32) : f32 :=
  if flt (fremainder plane s) kEpsilon
  then f32_of_f64 (dadd (f64_of_f32 plane) (ddiv (f64_of_f32 s) (f64_of_Z 2))) else plane.
(** ptcloud_vis.h:393-410 *)
Definition createDistancePointcloudFromTsdfLayerSlice (l : Layer KTsdf) (axis : nat) (plane : f32) :=
  createColorPointcloudFromLayer (k := KTsdf) (vis_tsdf_slice axis (slice_plane (l_size l) plane) (l_size l)) l.
(** ptcloud_vis.h:412-429 *)
Definition createDistancePointcloudFromEsdfLayerSlice (l : Layer KEsdf) (axis : nat) (plane : f32) :=
  createColorPointcloudFromLayer (k := KEsdf) (vis_esdf_slice axis (slice_plane (l_size l) plane) (l_size l)) l.

(** *** src/io/sdf_ply.cc *)
(** sdf_ply.cc:22-30 (and 48-56): colour of a distance *)
Definition sdf_color (range d : f32) : res (option Color) :=
  let t := fmin (fmax d (fneg range)) range in
  let factor := fmul (fbits 0x3f000000) (fadd f1 (fdiv t range)) in
  if fle factor f1 && fge factor f0 then
    let c := fbits 0x3f28f5c3 in (* 0.66f *)
    rbind (of_opt (rainbowColorMap (f64_of_f32 (fsub c (fmul c factor))))) (fun col => Ok (Some col))
  else Abort.
(** sdf_ply.cc:18 (and 44): beyond the largest distance *)
Definition beyond (max d : f32) : bool := fgt (fabs d) max && fgt max f0.
(** sdf_ply.cc:9-36 [getColorFromVoxel] for TSDF voxels *)
Definition getColorFromTsdfVoxel (range max : f32) (v : TsdfVoxel) (_ : pt3) : res (option Color) :=
  if fle (t_weight v) kEpsilon then Ok None
  else if beyond max (t_distance v) then Ok None else sdf_color range (t_distance v).
(** sdf_ply.cc:38-62 [getColorFromVoxel] for ESDF voxels *)
Definition getColorFromEsdfVoxel (range max : f32) (v : EsdfVoxel) (_ : pt3) : res (option Color) :=
  if negb (e_observed v) then Ok None
  else if beyond max (e_distance v) then Ok None else sdf_color range (e_distance v).
(** sdf_ply.h:70-116 [convertVoxelGridToPointCloud]: the points are added to the given cloud; the result says whether it
    has any points *)
Definition convertVoxelGridToPointCloud {k} (color : f32 -> f32 -> vox k -> pt3 -> res (option Color))
  (l : Layer k) (range max : f32) (cloud : list (pt3 * Color)) : res (bool * list (pt3 * Color)) :=
  if fgt range f0 then
    rbind (grid_blocks (color range max) l (getAllAllocatedBlocks l)) (fun c =>
    Ok (nonempty (cloud ++ c), cloud ++ c))
  else Abort.
