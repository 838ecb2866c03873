(** Views of the simulated world, with noise and from poses, and its ground and walls:
    /repo/voxblox/src/simulation/simulation_world.cc:12-32, 49-203. Definitions only. *)
From Coq Require Import ZArith List Bool.
From Verif Require Import F32 Types Index Voxel Update Ray Sim.
Import ListNotations.
Open Scope Z_scope.

(** objects.h:25-26, color.h: an object without a colour is white *)
Definition white : Color := MkColor 255 255 255 255.
(** 12-15 [addGroundLevel] *)
Definition addGroundLevel (h : f32) (w : list object) : list object :=
  w ++ [MkObject (PlaneObject (V3 f0 f0 h) (V3 f0 f0 f1)) white].
(** 17-32 [addPlaneBoundaries] *)
Definition addPlaneBoundaries (x_min x_max y_min y_max : f32) (w : list object) : list object :=
  w ++ [MkObject (PlaneObject (V3 x_min f0 f0) (V3 f1 f0 f0)) white;
        MkObject (PlaneObject (V3 x_max f0 f0) (V3 (fneg f1) f0 f0)) white;
        MkObject (PlaneObject (V3 f0 y_min f0) (V3 f0 f1 f0)) white;
        MkObject (PlaneObject (V3 f0 y_max f0) (V3 f0 (fneg f1) f0)) white].

(** [for (int u = -n / 2; u < n / 2; ++u)]: division towards zero *)
Definition pixel_range (n : Z) : list Z :=
  let lo := Z.quot (- n) 2 in let hi := Z.quot n 2 in
  map (fun k => lo + Z.of_nat k) (seq 0 (Z.to_nat (hi - lo))).
(** 83-86, 154-157: the direction of one pixel. [fl] is the focal length computed in line 67 (by [tan]); [rot]
    is the rotation from the x axis to the view direction (Eigen's and minkindr's; any function) *)
Definition ray_direction (rot : pt3 -> pt3) (fl : f32) (u v : Z) : pt3 :=
  rot (normalized3 (V3 f1 (fdiv (f32_of_Z u) fl) (fdiv (f32_of_Z v) fl))).
(** 80-82: the pixels in order *)
Definition view_rays (rot : pt3 -> pt3) (fl : f32) (res_x res_y : Z) : list pt3 :=
  flat_map (fun u => map (fun v => ray_direction rot fl u v) (pixel_range res_y)) (pixel_range res_x).
(** 61-117 [getPointcloudFromViewpoint] with its pixels *)
Definition clean_view (w : list object) (org : pt3) (rot : pt3 -> pt3) (fl : f32) (res_x res_y : Z) (max_dist : f32) : list (pt3 * Color) :=
  getPointcloudFromViewpoint w org max_dist (view_rays rot fl res_x res_y).

(** 178-189: the noise on one hit *)
Definition noisy_dist (t noise : f32) : f32 :=
  let d := fadd t noise in if dlt (f64_of_f32 d) d0 then f0 else d.
(** 152-192: the pixels in order; [noise k] is the [k]-th number drawn (197-203 [getNoise]; the generator is not modelled) *)
Fixpoint noisy_pixels (w : list object) (org : pt3) (max_dist : f32) (noise : nat -> f32) (k : nat) (dirs : list pt3) : list (pt3 * Color) :=
  match dirs with
  | [] => []
  | dir :: r =>
      match fold_left (nearer org dir max_dist) w None with
      | None => noisy_pixels w org max_dist noise k r
      | Some (t, c) =>
          if pt_nan (ray_at org dir t) then noisy_pixels w org max_dist noise k r
          else (ray_at org dir (noisy_dist t (noise k)), c) :: noisy_pixels w org max_dist noise (S k) r
      end
  end.
(** 132-195 [getNoisyPointcloudFromViewpoint] *)
Definition noisy_view (w : list object) (org : pt3) (rot : pt3 -> pt3) (fl : f32) (res_x res_y : Z) (max_dist : f32) (noise : nat -> f32)
  : list (pt3 * Color) := noisy_pixels w org max_dist noise 0 (view_rays rot fl res_x res_y).

(** A pose: how it turns a vector, and its position. [turn a b] is the rotation made from the two
    vectors (Eigen's [FromTwoVectors]) *)
Definition x_axis : pt3 := V3 f1 f0 f0.
Definition z_axis : pt3 := V3 f0 f0 f1.
(** 49-59 [getPointcloudFromTransform] *)
Definition clean_from_pose (turn : pt3 -> pt3 -> pt3 -> pt3) (w : list object) (pose : (pt3 -> pt3) * pt3) (fl : f32) (res_x res_y : Z) (max_dist : f32)
  : list (pt3 * Color) := clean_view w (snd pose) (turn x_axis (fst pose x_axis)) fl res_x res_y max_dist.
(** 119-130 [getNoisyPointcloudFromTransform]: the nominal direction is the z axis here *)
Definition noisy_from_pose (turn : pt3 -> pt3 -> pt3 -> pt3) (w : list object) (pose : (pt3 -> pt3) * pt3) (fl : f32) (res_x res_y : Z) (max_dist : f32)
  (noise : nat -> f32) : list (pt3 * Color) := noisy_view w (snd pose) (turn x_axis (fst pose z_axis)) fl res_x res_y max_dist noise.
