(** /repo/voxblox_ros/include/voxblox_ros/ros_params.h: the settings read from the parameter
    server. Definitions only. *)
From Coq Require Import ZArith String List Bool.
From Verif Require Import F32 Types Index Voxel Layer Update Cloud MeshInt Queue Esdf.
Import ListNotations.
Open Scope string_scope.
Open Scope Z_scope.

(** the parameters, by the type asked for: what [NodeHandle::getParam] gives for a name, if
    anything. The conversions of the client library (an int given where a double is asked for)
    are in these functions. *)
Record params : Type := MkParams {
  p_num : string -> option f64; p_int : string -> option Z; p_bool : string -> option bool; p_str : string -> option string }.
(** [nh.param(name, value, default)]; a float is read as a double and cast *)
Definition or_default {A} (o : option A) (d : A) : A := match o with Some a => a | None => d end.
Definition num64 (P : params) (k : string) (d : f64) : f64 := or_default (p_num P k) d.
Definition num32 (P : params) (k : string) (d : f32) : f32 := match p_num P k with Some x => f32_of_f64 x | None => d end.
Definition int32 (P : params) (k : string) (d : Z) : Z := or_default (p_int P k) d.
Definition flag (P : params) (k : string) (d : bool) : bool := or_default (p_bool P k) d.

(** 15-37 [getTsdfMapConfigFromRosParam], defaults of tsdf_map.h:26-31. [isPowerOfTwo] is
    undefined for the smallest int, where [x - 1] overflows. *)
Definition tsdf_map_config (P : params) : res (f32 * Z) :=
  let voxel_size := num64 P "tsdf_voxel_size" (f64_of_f32 (fbits 0x3e4ccccd)) in
  let voxels_per_side := int32 P "tsdf_voxels_per_side" 16 in
  if voxels_per_side =? - 2 ^ 31 then UB
  else Ok (f32_of_f64 voxel_size, if isPowerOfTwo voxels_per_side then voxels_per_side else 16).
(** 118-128 [getEsdfMapConfigFromRosParam] *)
Definition esdf_map_config (P : params) : res (f32 * Z) := tsdf_map_config P.
(** 60-116 [getTsdfIntegratorConfigFromRosParam], defaults of tsdf_integrator.h:59-86: the
    members of [CloudConfig]; then the frames between two clearings of the sets, the time limit
    and the order of the fast integrator *)
Record integrator_config : Type := MkIC { ic_cloud : CloudConfig; ic_every : Z; ic_time : f32; ic_order : string }.
Definition tsdf_integrator_config (P : params) : res integrator_config :=
  rbind (tsdf_map_config P) (fun m =>
  let default_truncation_distance := fmul (fst m) (f32_of_Z 4) in
  let truncation_distance := num64 P "truncation_distance" (f64_of_f32 default_truncation_distance) in
  let max_weight := num64 P "max_weight" (f64_of_f32 (fbits 0x461c4000)) in
  Ok (MkIC
    (MkCC
      (MkTC (f32_of_f64 truncation_distance) (f32_of_f64 max_weight) (flag P "use_const_weight" false)
         (flag P "use_weight_dropoff" true) (flag P "use_sparsity_compensation_factor" false)
         (num32 P "sparsity_compensation_factor" (fbits 0x3f800000)))
      (num32 P "min_ray_length_m" (fbits 0x3dcccccd)) (num32 P "max_ray_length_m" (fbits 0x40a00000))
      (flag P "allow_clear" true) (flag P "voxel_carving_enabled" true) (flag P "anti_grazing" false)
      (num32 P "start_voxel_subsampling_factor" (fbits 0x40000000)) (int32 P "max_consecutive_ray_collisions" 2))
    (int32 P "clear_checks_every_n_frames" 1) (num32 P "max_integration_time_s" (fbits 0x7f7fffff))
    (or_default (p_str P "integration_order_mode") "mixed"))).
(** 130-168 [getEsdfIntegratorConfigFromRosParam], defaults of esdf_integrator.h:37-77 *)
Definition esdf_integrator_config (P : params) : res econfig :=
  rbind (tsdf_integrator_config P) (fun t =>
  let min_distance := f32_of_f64 (ddiv (f64_of_f32 (c_trunc (cc_tsdf (ic_cloud t)))) (f64_of_Z 2)) in
  let max_distance := num32 P "esdf_max_distance_m" (fbits 0x40000000) in
  let default_distance := num32 P "esdf_default_distance_m" (fbits 0x40000000) in
  Ok (MkEC (flag P "esdf_euclidean_distance" false) max_distance (num32 P "esdf_min_distance_m" min_distance)
        (if flt default_distance max_distance then max_distance else default_distance)
        (num32 P "esdf_min_diff_m" (fbits 0x3a83126f)) (fbits 0x358637bd) 20 false (flag P "esdf_add_occupied_crust" false)
        (num32 P "clear_sphere_radius" (fbits 0x3fc00000)) (num32 P "occupied_sphere_radius" (fbits 0x40a00000)))).
(** 170-180 [getMeshIntegratorConfigFromRosParam], defaults of mesh_integrator.h:50-51 *)
Definition mesh_integrator_config (P : params) : MeshConfig :=
  MkMeshConfig (flag P "mesh_use_color" true) (num32 P "mesh_min_weight" (fbits 0x38d1b717)).
(** 38-57 [getICPConfigFromRosParam], defaults of icp.h:76-106; [num_threads], which no
    parameter sets, is left out *)
Record icp_config : Type := MkIcpConfig {
  icp_roll_pitch : bool; icp_batch : Z; icp_match_ratio : f32; icp_keep_ratio : f32; icp_translation : f32; icp_rotation : f32 }.
Definition icp_config_of (P : params) : icp_config :=
  MkIcpConfig (flag P "icp_refine_roll_pitch" false) (int32 P "icp_mini_batch_size" 20)
    (num32 P "icp_min_match_ratio" (fbits 0x3f4ccccd)) (num32 P "icp_subsample_keep_ratio" (fbits 0x3f000000))
    (num32 P "icp_inital_translation_weighting" (fbits 0x42c80000)) (num32 P "icp_inital_rotation_weighting" (fbits 0x42c80000)).
