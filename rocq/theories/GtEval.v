(** The evaluation of a TSDF against a ground-truth point cloud:
    /repo/voxblox_ros/src/voxblox_eval.cc. Definitions only. The points are those of
    the cloud after [pcl::transformPointCloud] (150-154), which is not modelled. *)
From Coq Require Import ZArith List Bool.
From Verif Require Import F32 Types Index Voxel Assoc Layer Planning Interp Coords ColorMap.
Import ListNotations.
Open Scope Z_scope.

(** interpolator_inl.h:386-400 [getNearestDistanceAndWeight] with 404-421 [getVoxelSdf],
    [getVoxelWeight] *)
Definition getNearestDistanceAndWeight (l : Layer KTsdf) (p : pt3) : res (option (f32 * f32)) :=
  rbind (getNearestVoxel l p) (fun r => Ok (option_map (fun v => (t_distance v, t_weight v)) r)).
(** voxblox_eval.cc:166: [2 * voxel_size()] in float, kept as a double *)
Definition truncation_of (l : Layer KTsdf) : f64 := f64_of_f32 (fmul (f32_of_Z 2) (l_size l)).
(** 179: [const float min_weight = 0.01] *)
Definition gt_min_weight : f32 := fbits 0x3c23d70a.

(** 161-163,168: the counters and the sum of squares *)
Record tally := MkTally { g_total : Z; g_unknown : Z; g_outside : Z; g_mse : f64 }.
(** 183-198: one point: the new counters (without the total), and the distance when
    the point is valid; [rows] and [top] are the orders of the sums in the interpolation *)
Definition judge_point (rows : nat -> sum_order) (top : sum_order) (l : Layer KTsdf) (s : tally) (p : pt3)
  : res (tally * option f32) :=
  rbind (getNearestDistanceAndWeight l p) (fun r =>
    match r with
    | None => Ok (MkTally (g_total s) (g_unknown s + 1) (g_outside s) (g_mse s), None)
    | Some (d, w) =>
        if fle w gt_min_weight then Ok (MkTally (g_total s) (g_unknown s + 1) (g_outside s) (g_mse s), None)
        else if dge (f64_of_f32 d) (truncation_of l) then
          Ok (MkTally (g_total s) (g_unknown s) (g_outside s + 1) (dadd (g_mse s) (dmul (truncation_of l) (truncation_of l))), Some d)
        else
          rbind (getInterpDistance rows top l p) (fun i =>
            let d := match i with Some d' => d' | None => d end in
            Ok (MkTally (g_total s) (g_unknown s) (g_outside s) (dadd (g_mse s) (f64_of_f32 (fmul d d))), Some d))
    end).
(** 200-207: the voxel of the point is coloured by the error; a shade above 255 does
    not fit the byte and is undefined *)
Definition recolor_point (l : Layer KTsdf) (p : pt3) (d : f32) : res (Layer KTsdf) :=
  rbind (voxelPtrByCoordinates l p) (fun a =>
    match a with
    | None => Ok l
    | Some a =>
        rbind (load_ptr l a) (fun v =>
        rbind (of_opt (grayColorMap (ddiv (f64_of_f32 (fabs d)) (truncation_of l)))) (fun c =>
        store_ptr l a (MkTsdf (t_distance v) (t_weight v) c)))
    end).
(** 170-210: the loop body *)
Definition gt_point (rows : nat -> sum_order) (top : sum_order) (visualize recolor : bool) (ls : Layer KTsdf * tally) (p : pt3)
  : res (Layer KTsdf * tally) :=
  let '(l, s) := ls in
  rbind (judge_point rows top l s p) (fun r =>
    let s' := MkTally (g_total (fst r) + 1) (g_unknown (fst r)) (g_outside (fst r)) (g_mse (fst r)) in
    match snd r with
    | Some d => if visualize && recolor then rbind (recolor_point l p d) (fun l' => Ok (l', s')) else Ok (l, s')
    | None => Ok (l, s')
    end).
(** 212-222: what is printed: the RMS error, the counts and the two fractions *)
Record gt_report := MkGt { gr_rms : f64; gr_total : Z; gr_unknown : Z; gr_unknown_part : f64; gr_outside : Z; gr_outside_part : f64 }.
Definition report_of (s : tally) : gt_report :=
  MkGt (dsqrt (ddiv (g_mse s) (f64_of_Z (g_total s - g_unknown s)))) (g_total s)
       (g_unknown s) (ddiv (f64_of_Z (g_unknown s)) (f64_of_Z (g_total s)))
       (g_outside s) (ddiv (f64_of_Z (g_outside s)) (f64_of_Z (g_total s))).
(** 150-222 [evaluate]: the layer afterwards and the report *)
Definition evaluateGt (rows : nat -> sum_order) (top : sum_order) (visualize recolor : bool) (l : Layer KTsdf) (cloud : list pt3)
  : res (Layer KTsdf * gt_report) :=
  rbind (rfold (gt_point rows top visualize recolor) cloud (l, MkTally 0 0 0 d0)) (fun r => Ok (fst r, report_of (snd r))).
