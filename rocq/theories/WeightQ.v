(** Weight queries: /repo/voxblox/include/voxblox/interpolator/interpolator_inl.h 25-34,
    319-351, 385-426 and /repo/voxblox/src/core/tsdf_map.cc 80-97. Definitions only.
    A query answers [Ok None] for [return false]. *)
From Coq Require Import ZArith List Bool.
From Verif Require Import F32 Types Index Voxel Layer Interp Grad.
Import ListNotations.
Open Scope Z_scope.

(** interpolator_inl.h:412-426 [getVoxelWeight] *)
Definition getVoxelWeight (k : vkind) : vox k -> f32 :=
  match k with
  | KTsdf => fun v => t_weight v
  | KEsdf => fun v => if e_observed v then f1 else f0
  | _ => fun _ => f0
  end.
(** interpolator_inl.h:319-333 [getInterpWeight] *)
Definition getInterpWeight {k} (rows : nat -> sum_order) (top : sum_order) (l : Layer k) (pos : pt3) : res (option f32) :=
  rbind (getVoxelsAndQVector l pos) (fun r =>
    match r with
    | None => Ok None
    | Some (o, xs) => Ok (Some (interpMember rows top (q_vector o) (map (getVoxelWeight k) xs)))
    end).
(** interpolator_inl.h:335-351 [getNearestWeight] (what is written when the answer is
    false is left out: the callers below do not use it) *)
Definition getNearestWeight {k} (l : Layer k) (pos : pt3) : res (option f32) :=
  rbind (getNearestVoxel l pos) (fun r =>
    match r with
    | Some x => if isObservedVoxel k x then Ok (Some (getVoxelWeight k x)) else Ok None
    | None => Ok None
    end).
(** interpolator_inl.h:25-34 [getWeight] *)
Definition getWeight {k} (rows : nat -> sum_order) (top : sum_order) (l : Layer k) (pos : pt3) (interpolate : bool) : res (option f32) :=
  if interpolate then getInterpWeight rows top l pos else getNearestWeight l pos.
(** interpolator_inl.h:385-400 [getNearestDistanceAndWeight] *)
Definition getNearestDistanceAndWeight {k} (l : Layer k) (pos : pt3) : res (option (f32 * f32)) :=
  rbind (getNearestVoxel l pos) (fun r =>
    Ok (match r with Some x => Some (getVoxelSdf k x, getVoxelWeight k x) | None => None end)).
(** tsdf_map.cc:86-97 [getWeightAtPosition]: the answer and [*weight], which was [w0] *)
Definition getWeightAtPosition (rows : nat -> sum_order) (top : sum_order) (l : Layer KTsdf) (position : dpt) (interpolate : bool) (w0 : f64)
  : res (bool * f64) :=
  rbind (getWeight rows top l (cast3 position) interpolate) (fun w =>
    Ok (match w with Some w => (true, f64_of_f32 w) | None => (false, w0) end)).
(** tsdf_map.cc:80-84, the overload that interpolates *)
Definition getWeightAtPositionInterp (rows : nat -> sum_order) (top : sum_order) (l : Layer KTsdf) (position : dpt) (w0 : f64) : res (bool * f64) :=
  getWeightAtPosition rows top l position true w0.
