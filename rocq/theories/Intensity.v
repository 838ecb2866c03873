(** Casting a ray onto the surface (/repo/voxblox/include/voxblox/utils/distance_utils.h)
    and intensity integration (/repo/voxblox/src/integrator/intensity_integrator.cc).
    Definitions only. *)
From Coq Require Import ZArith List Bool.
From Verif Require Import F32 Types Index Voxel Serialize Assoc Layer Threads Planning Ray.
Import ListNotations.
Open Scope Z_scope.

(** [origin + t * direction], distance_utils.h:37,75 *)
Definition along (o d : pt3) (t : f32) : pt3 := zip3 (fun a b => fadd a (fmul t b)) o d.
(** block.h:78-81,111-133 [getVoxelByCoordinates] on a block of a layer: the address
    read or written (the voxel index is clamped to the block) *)
Definition coord_addr {k} (b : Block k) (bi : idx3) (p : pt3) : res addr :=
  rbind (of_opt (computeTruncatedVoxelIndexFromCoordinates (b_vps b) (b_origin b) (inv_of (b_size b)) p))
    (fun v => Ok (bi, Z.to_nat (computeLinearIndexFromVoxelIndex (b_vps b) v))).
(** layer.h:116-131 *)
Definition block_of_coords {k} (l : Layer k) (p : pt3) : res idx3 :=
  of_opt (computeBlockIndexFromCoordinates (l_vps l) (l_size l) p).

(** one iteration of the marching loop, distance_utils.h:36-72: the next distance
    along the ray and whether the surface was found *)
Definition march_step (l : Layer KTsdf) (o d : pt3) (t : f32) : res (f32 * bool) :=
  let s := l_size l in
  let p := along o d t in
  rbind (block_of_coords l p) (fun bi =>
    match l_get l bi with
    | None => Ok (fadd t s, false)
    | Some b =>
        rbind (coord_addr b bi p) (fun a =>
          match nth_error (b_voxels b) (snd a) with
          | None => UB
          | Some v =>
              if dlt (f64_of_f32 (t_weight v)) d1em6 then Ok (fadd t s, false)
              else if flt s (t_distance v) then Ok (fadd t (t_distance v), false)
              else if flt (t_distance v) f0 then Ok (t, true)
              else if flt (t_distance v) s then Ok (fadd t (t_distance v), true)
              else Ok (fadd t s, false)
          end)
    end).
(** the loop, 36-72; [Ok None]: more than [fuel] iterations *)
Fixpoint march (fuel : nat) (l : Layer KTsdf) (o d : pt3) (max_d t : f32) : res (option (option f32)) :=
  if flt t max_d then
    match fuel with
    | O => Ok None
    | S n => rbind (march_step l o d t) (fun ts =>
               if snd ts then Ok (Some (Some (fst ts))) else march n l o d max_d (fst ts))
    end
  else Ok (Some None).
(** distance_utils.h:16-78 [getSurfaceDistanceAlongRay] *)
Definition getSurfaceDistanceAlongRay (fuel : nat) (l : Layer KTsdf) (o bearing : pt3) (max_d : f32)
  : res (option (option pt3)) :=
  let d := normalized3 bearing in
  rbind (march fuel l o d max_d f0) (fun r =>
    match r with
    | None => Ok None
    | Some None => Ok (Some None)
    | Some (Some t) => Ok (Some (Some (along o d t)))
    end).

(** ** intensity_integrator.cc *)
(** 10-11 *)
Definition kMaxWeight : f32 := f32_of_Z 100.
Definition kPropRadius : Z := 2.
(** [weight += 1.0]: a double sum narrowed to float *)
Definition weight_inc (w : f32) : f32 := f32_of_f64 (dadd (f64_of_f32 w) d1).
(** 39-46: the voxel at the surface *)
Definition update_surface (x : f32) (v : IntensityVoxel) : IntensityVoxel :=
  let w := weight_inc (i_weight v) in
  MkInt (fdiv (fadd (fmul (i_weight v) (i_intensity v)) x) (fadd (i_weight v) f1))
        (if fgt w kMaxWeight then kMaxWeight else w).
(** 59-62: the voxels around *)
Definition update_near (x : f32) (v : IntensityVoxel) : IntensityVoxel :=
  if dlt (f64_of_f32 (i_weight v)) d1em6 then MkInt x (weight_inc (i_weight v)) else v.
(** the sampled offsets, 51-52 *)
Definition prop_offsets : list Z := [-2; -1; 0; 1; 2].
(** 53-54: [surface + bearing * offset * voxel_size] *)
Definition close_point (surface bearing : pt3) (s : f32) (k : Z) : pt3 :=
  zip3 (fun a b => fadd a (fmul (fmul b (f32_of_Z k)) s)) surface bearing.
(** read and write back one voxel of block [bi] through a reference *)
Definition modify (l : Layer KInt) (bi : idx3) (p : pt3) (f : IntensityVoxel -> IntensityVoxel)
  : res (Layer KInt) :=
  match l_get l bi with
  | None => UB
  | Some b => rbind (coord_addr b bi p) (fun a =>
                rbind (vget l a) (fun v => Ok (vset l a (f v))))
  end.
(** 51-63: one offset; line 57 allocates the block of the point but line 58 uses the
    block of the surface point *)
Definition prop_one (surface bearing : pt3) (s x : f32) (bi : idx3) (l : Layer KInt) (k : Z)
  : res (Layer KInt) :=
  let p := close_point surface bearing s k in
  rbind (block_of_coords l p) (fun nb => modify (allocateBlockPtrByIndex l nb) bi p (update_near x)).
(** 36-63: what follows a found intersection; [s] is the voxel size of the TSDF layer *)
Definition mark_surface (l : Layer KInt) (s : f32) (surface bearing : pt3) (x : f32) : res (Layer KInt) :=
  rbind (block_of_coords l surface) (fun bi =>
    rbind (modify (allocateBlockPtrByIndex l bi) bi surface (update_surface x)) (fun l1 =>
      rfold (prop_one surface bearing s x bi) prop_offsets l1)).
(** 24-64: one bearing vector; [Ok None]: the cast did not end within [fuel] steps *)
Definition add_bearing (fuel : nat) (tl : Layer KTsdf) (max_d : f32) (o : pt3) (l : Layer KInt)
  (bx : pt3 * f32) : res (option (Layer KInt)) :=
  rbind (getSurfaceDistanceAlongRay fuel tl o (fst bx) max_d) (fun r =>
    match r with
    | None => Ok None
    | Some None => Ok (Some l)
    | Some (Some p) => rbind (mark_surface l (l_size tl) p (fst bx) (snd bx)) (fun l' => Ok (Some l'))
    end).
(** 15-66 [addIntensityBearingVectors]; the CHECK on the sizes *)
Fixpoint add_bearings (fuel : nat) (tl : Layer KTsdf) (max_d : f32) (o : pt3) (l : Layer KInt)
  (bxs : list (pt3 * f32)) : res (option (Layer KInt)) :=
  match bxs with
  | [] => Ok (Some l)
  | bx :: r => rbind (add_bearing fuel tl max_d o l bx) (fun ol =>
                 match ol with None => Ok None | Some l' => add_bearings fuel tl max_d o l' r end)
  end.
Definition addIntensityBearingVectors (fuel : nat) (tl : Layer KTsdf) (max_d : f32) (l : Layer KInt)
  (o : pt3) (bearings : list pt3) (xs : list f32) : res (option (Layer KInt)) :=
  if Nat.eqb (length bearings) (length xs) then add_bearings fuel tl max_d o l (combine bearings xs)
  else Abort.
