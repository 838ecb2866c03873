(** Transforming and resampling layers:
    /repo/voxblox/include/voxblox/integrator/merge_integration.h:17, 56-219 and the
    voxel queries of interpolator_inl.h. Definitions only. Only TSDF layers have the
    interpolation of whole voxels (interpolator_inl.h:476-490). A [Transformation] of
    minkindr is a function from points to points here; nothing is assumed about it. *)
From Coq Require Import ZArith List Bool.
From Verif Require Import F32 Types Index Voxel Serialize Assoc Layer Threads MeshInt Planning Merge Interp.
Import ListNotations.
Open Scope Z_scope.

(** ** interpolator_inl.h *)
(** 449-474 with an [uint8_t] getter, 483-486: the float is narrowed to [uint8_t],
    undefined when it does not fit *)
Definition interp_byte (rows : nat -> sum_order) (top : sum_order) (q : list f32) (data : list Z) : option Z :=
  to_uint8 (ftruncZ (interpMember rows top q (map f32_of_Z data))).
(** 476-490 [interpVoxel] *)
Definition interpVoxel (rows : nat -> sum_order) (top : sum_order) (q : list f32) (xs : list TsdfVoxel) : res TsdfVoxel :=
  let ch (f : Color -> Z) := of_opt (interp_byte rows top q (map (fun x => f (t_color x)) xs)) in
  rbind (ch cr) (fun r => rbind (ch cg) (fun g => rbind (ch cb) (fun b => rbind (ch ca) (fun a =>
    Ok (MkTsdf (interpMember rows top q (map t_distance xs)) (interpMember rows top q (map t_weight xs)) (MkColor r g b a)))))).
(** 353-367 [getInterpVoxel] *)
Definition getInterpVoxel (rows : nat -> sum_order) (top : sum_order) (l : Layer KTsdf) (pos : pt3) : res (option TsdfVoxel) :=
  rbind (getVoxelsAndQVector l pos) (fun r =>
    match r with
    | None => Ok None
    | Some (o, xs) => rbind (interpVoxel rows top (q_vector o) xs) (fun v => Ok (Some v))
    end).
(** 369-384 [getNearestVoxel(pos, voxel)]: what [*voxel], [old] before, is
    afterwards (it is written even when the answer is false), and the answer *)
Definition nearest_into (l : Layer KTsdf) (pos : pt3) (old : TsdfVoxel) : res (TsdfVoxel * bool) :=
  rbind (getNearestVoxel l pos) (fun r =>
    match r with
    | None => Ok (old, false)
    | Some x => Ok (x, isObservedVoxel KTsdf x)
    end).

(** ** merge_integration.h *)
(** 17 [kUnitCubeDiagonalLength], the float next to sqrt(3.0) *)
Definition kUnitCubeDiagonalLength : f32 := fbits 0x3fddb3d7.
(** 167-168: the float product times the double 0.5, narrowed *)
Definition mark_offset (block_size : f32) : f32 :=
  f32_of_f64 (dmul (f64_of_f32 (fmul kUnitCubeDiagonalLength block_size)) dhalf).
(** 171-177, one of the loops [for (x = lo; x < hi; x += step)]; [None]: more than
    [fuel] passes *)
Fixpoint axis_samples (fuel : nat) (x hi step : f32) : option (list f32) :=
  if flt x hi then
    match fuel with
    | O => None
    | S n => option_map (cons x) (axis_samples n (fadd x step) hi step)
    end
  else Some [].
Definition samples (fuel : nat) (c off step : f32) : option (list f32) :=
  axis_samples fuel (fsub c off) (fadd c off) step.
(** 159-184, the body for one input block: the indices inserted. An inner loop is
    not entered when an outer one makes no pass. *)
Definition block_marks (fuel : nat) (bs_in bs_out : f32) (T : pt3 -> pt3) (bi : idx3) : res (option (list idx3)) :=
  let c := T (getCenterPointFromGridIndex bi bs_in) in
  let off := mark_offset bs_in in
  match samples fuel (vx c) off bs_out with
  | None => Ok None
  | Some [] => Ok (Some [])
  | Some xs =>
      match samples fuel (vy c) off bs_out with
      | None => Ok None
      | Some [] => Ok (Some [])
      | Some ys =>
          match samples fuel (vz c) off bs_out with
          | None => Ok None
          | Some zs =>
              rbind (rmap (fun p => of_opt (getGridIndexFromPoint p (fdiv f1 bs_out)))
                       (flat_map (fun x => flat_map (fun y => map (fun z => V3 x y z) zs) ys) xs))
                    (fun is => Ok (Some is))
          end
      end
  end.
(** 154-184: all insertions *)
Fixpoint all_marks (fuel : nat) (bs_in bs_out : f32) (T : pt3 -> pt3) (bis : list idx3) : res (option (list idx3)) :=
  match bis with
  | [] => Ok (Some [])
  | bi :: bis' =>
      rbind (block_marks fuel bs_in bs_out T bi) (fun o =>
        match o with
        | None => Ok None
        | Some m => rbind (all_marks fuel bs_in bs_out T bis') (fun o' => Ok (option_map (app m) o'))
        end)
  end.
(** 197-214, one voxel: what it is afterwards and whether [has_data] is set *)
Definition tl_voxel (rows : nat -> sum_order) (top : sum_order) (lin : Layer KTsdf) (Tinv : pt3 -> pt3) (b : Block KTsdf) (n : nat) (v : TsdfVoxel)
  : res (TsdfVoxel * bool) :=
  rbind (of_opt (computeVoxelIndexFromLinearIndex (b_vps b) (Z.of_nat n))) (fun i =>
    let p := Tinv (computeCoordinatesFromVoxelIndex (b_origin b) (b_size b) i) in
    rbind (getInterpVoxel rows top lin p) (fun o =>
      match o with
      | Some w => Ok (w, true)
      | None => nearest_into lin p v
      end)).
(** 197-214, the loop *)
Fixpoint tl_voxels (rows : nat -> sum_order) (top : sum_order) (lin : Layer KTsdf) (Tinv : pt3 -> pt3) (b : Block KTsdf) (n : nat) (vs : list TsdfVoxel)
  : res (list TsdfVoxel * bool) :=
  match vs with
  | [] => Ok ([], false)
  | v :: vs' =>
      rbind (tl_voxel rows top lin Tinv b n v) (fun r =>
        rbind (tl_voxels rows top lin Tinv b (S n) vs') (fun r' => Ok (fst r :: fst r', snd r || snd r')))
  end.
(** 193-219, one block *)
Definition tl_block (rows : nat -> sum_order) (top : sum_order) (lin : Layer KTsdf) (Tinv : pt3 -> pt3) (out : Layer KTsdf) (bi : idx3) : res (Layer KTsdf) :=
  let l := allocateBlockPtrByIndex out bi in
  match l_get l bi with
  | None => UB
  | Some b =>
      rbind (tl_voxels rows top lin Tinv b 0 (b_voxels b)) (fun r =>
        if b_has_data b || snd r
        then Ok (with_blocks l (aset bi (set_has_data true (set_voxels (k := KTsdf) (fst r) b)) (l_blocks l)))
        else Ok (removeBlock l bi))
  end.
(** 140-220 [transformLayer]. [T] is [T_out_in], [Tinv] its [inverse()]. The blocks
    are visited in the order of the hash set, [order] of the insertions. *)
Definition transformLayer (rows : nat -> sum_order) (top : sum_order) (order : list idx3 -> list idx3) (fuel : nat)
    (lin : Layer KTsdf) (T Tinv : pt3 -> pt3) (out : Layer KTsdf) : res (option (Layer KTsdf)) :=
  rbind (all_marks fuel (l_block_size lin) (l_block_size out) T (getAllAllocatedBlocks lin)) (fun o =>
    match o with
    | None => Ok None
    | Some m => rbind (rfold (tl_block rows top lin Tinv) (order m) out) (fun l => Ok (Some l))
    end).

(** 106-136, one voxel of [naiveTransformLayer]: note that the point looked up in the
    input layer is the transformed one *)
Definition nt_voxel (lin : Layer KTsdf) (T : pt3 -> pt3) (b : Block KTsdf) (out : Layer KTsdf) (n : nat) : res (Layer KTsdf) :=
  rbind (of_opt (computeVoxelIndexFromLinearIndex (b_vps b) (Z.of_nat n))) (fun i =>
    let p := T (computeCoordinatesFromVoxelIndex (b_origin b) (b_size b) i) in
    rbind (of_opt (getGlobalGridIndexFromPoint p (inv_of (l_size out)))) (fun g =>
      rbind (of_opt (getBlockIndexFromGlobalVoxelIndex g (vps_inv_layer (l_vps out)))) (fun bi =>
        let l := allocateBlockPtrByIndex out bi in
        match l_get l bi with
        | None => UB
        | Some ob =>
            rbind (getLocalFromGlobalVoxelIndex g (l_vps l)) (fun v =>
              let m := Z.to_nat (computeLinearIndexFromVoxelIndex (b_vps ob) v) in
              match nth_error (b_voxels ob) m with
              | None => UB
              | Some old =>
                  rbind (nearest_into lin p old) (fun r =>
                    Ok (with_blocks l (aset bi (set_has_data (b_has_data ob || snd r) (set_voxels (k := KTsdf) (set_th m (fst r) (b_voxels ob)) ob)) (l_blocks l))))
              end)
        end))).
(** 94-138 [naiveTransformLayer] *)
Definition naiveTransformLayer (lin : Layer KTsdf) (T : pt3 -> pt3) (out : Layer KTsdf) : res (Layer KTsdf) :=
  rfold (fun l bi =>
    match l_get lin bi with
    | None => Abort
    | Some b => rfold (nt_voxel lin T b) (seq 0 (num_voxels (b_vps b))) l
    end) (getAllAllocatedBlocks lin) out.

(** 77-86 [resampleLayer]; [I] and [Iinv] are the default constructed transformation
    and its inverse *)
Definition resampleLayer (rows : nat -> sum_order) (top : sum_order) (order : list idx3 -> list idx3) (fuel : nat)
    (lin : Layer KTsdf) (I Iinv : pt3 -> pt3) (out : Layer KTsdf) : res (option (Layer KTsdf)) :=
  transformLayer rows top order fuel lin I Iinv out.
(** 56-75 [mergeLayerAintoLayerB] with a transformation; the layers have the same
    layout after it, so [mergeLayerAintoLayerB] does not resample *)
Definition mergeTransformed (rows : nat -> sum_order) (top : sum_order) (order : list idx3 -> list idx3) (fuel : nat)
    (la : Layer KTsdf) (T Tinv : pt3 -> pt3) (lb : Layer KTsdf) (naive : bool) : res (option (Layer KTsdf)) :=
  rbind (new_layer KTsdf (l_size lb) (l_vps lb)) (fun empty =>
    if naive
    then rbind (naiveTransformLayer la T empty) (fun l => rbind (mergeLayerAintoLayerB l l lb) (fun r => Ok (Some r)))
    else rbind (transformLayer rows top order fuel la T Tinv empty) (fun o =>
      match o with
      | None => Ok None
      | Some l => rbind (mergeLayerAintoLayerB l l lb) (fun r => Ok (Some r))
      end)).
