(** Model of [getHierarchicalIndexAlongRay]: the voxels of a ray, sorted into blocks. *)
From Coq Require Import ZArith List Bool.
From Verif Require Import F32 Types Assoc Index Layer Ray Planning.
Import ListNotations.
Open Scope Z_scope.

(** integrator_utils.h:178-186: a negative component is raised by [voxels_per_side] *)
Definition raise_neg (n : Z) (v : idx3) : idx3 := map3 (fun c => if c <? 0 then c + n else c) v.
(** integrator_utils.h:149-193 [getHierarchicalIndexAlongRay]; [fuel] bounds the calls of
    [nextRayIndex] ([Ok None] when it was not enough); the timers are left out. *)
Definition getHierarchicalIndexAlongRay (fuel : nat) (garbage : caster) (start end_ : pt3) (n : Z)
  (voxel_size trunc : f32) (carving : bool) : res (option (amap (list idx3))) :=
  let n_inv := vps_inv_common n in
  let inv := inv_of voxel_size in
  let unit_ray := normalized3 (pt_sub end_ start) in
  let ray_end := pt_add end_ (pt_scale unit_ray trunc) in
  let ray_start := if carving then start else pt_sub end_ (pt_scale unit_ray trunc) in
  rbind (castRay fuel garbage (pt_scale ray_start inv) (pt_scale ray_end inv)) (fun o =>
    match o with
    | None => Ok None
    | Some voxels =>
        rbind (rfold (fun m g =>
                 rbind (of_opt (getBlockIndexFromGlobalVoxelIndex g n_inv)) (fun b =>
                 rbind (getLocalFromGlobalVoxelIndex g n) (fun v => Ok (hier_add m b (raise_neg n v))))) voxels [])
          (fun m => Ok (Some m))
    end).
