(** Ray casting: /repo/voxblox/src/integrator/integrator_utils.cc and
    include/voxblox/integrator/integrator_utils.h. Definitions only. *)
From Coq Require Import ZArith List Bool.
From Verif Require Import F32 Types Index Layer Update.
Import ListNotations.
Open Scope Z_scope.

(** integrator_utils.h:119-125, the members of [RayCaster]; the last two are
    [unsigned int]. [ray_step_signs_] holds -1, 0 or 1. *)
Record caster : Type := MkRC {
  rc_t : pt3;        (* t_to_next_boundary_ *)
  rc_cur : idx3;     (* curr_index_ *)
  rc_sign : idx3;    (* ray_step_signs_ *)
  rc_dt : pt3;       (* t_step_size_ *)
  rc_len : Z;        (* ray_length_in_steps_ *)
  rc_step : Z }.     (* current_step_ *)

(** core/common.h:258 [signum] *)
Definition signum (x : f32) : Z := if feq x f0 then 0 else if flt x f0 then -1 else 1.
(** one component of the vectors computed at integrator_utils.cc:144-178.
    [std::abs(ray) < 0.0] is never true. *)
Definition axis_t0 (start : f32) (cur : Z) (ray : f32) : f32 :=
  let corrected_step := Z.max 0 (signum ray) in
  let start_scaled_shifted := fsub start (f32_of_Z cur) in
  let distance_to_boundary := fsub (f32_of_Z corrected_step) start_scaled_shifted in
  fdiv distance_to_boundary ray.
Definition axis_dt (ray : f32) : f32 := fdiv (f32_of_Z (signum ray)) ray.

Definition pt_nan (p : pt3) : bool := fnan (vx p) || fnan (vy p) || fnan (vz p).
Definition l1_norm (d : idx3) : Z := Z.abs (vx d) + Z.abs (vy d) + Z.abs (vz d).
(** integrator_utils.cc:127-179 [setupRayCaster]. [garbage] is the content of the
    object before the call: the constructors initialise no member, and the early
    return leaves all but [ray_length_in_steps_] as they are. Undefined when a
    float to int64 cast is, or when the L1 norm overflows int64. *)
Definition setupRayCaster (garbage : caster) (start end_ : pt3) : res caster :=
  if pt_nan start || pt_nan end_ then
    Ok (MkRC (rc_t garbage) (rc_cur garbage) (rc_sign garbage) (rc_dt garbage) 0 (rc_step garbage))
  else
  rbind (of_opt (getGridIndexFromScaledPoint start)) (fun cur =>
  rbind (of_opt (getGridIndexFromScaledPoint end_)) (fun end_index =>
  let diff := idx_sub end_index cur in
  if 2 ^ 63 <=? l1_norm diff then UB else
  let ray := pt_sub end_ start in
  Ok (MkRC (V3 (axis_t0 (vx start) (vx cur) (vx ray)) (axis_t0 (vy start) (vy cur) (vy ray))
               (axis_t0 (vz start) (vz cur) (vz ray)))
           cur (map3 signum ray) (map3 axis_dt ray) (u32 (l1_norm diff)) 0))).

(** Eigen [minCoeff(&index)] of a float 3-vector: starts from the first
    coefficient and moves on when the next one is smaller; a NaN is never smaller
    and nothing is smaller than a NaN. *)
Definition minCoeff (t : pt3) : nat :=
  let '(i, m) := if flt (vy t) (vx t) then (1%nat, vy t) else (0%nat, vx t) in
  if flt (vz t) m then 2%nat else i.
Definition upd3 {A} (i : nat) (f : A -> A) (v : v3 A) : v3 A :=
  match i with
  | O => V3 (f (vx v)) (vy v) (vz v)
  | 1%nat => V3 (vx v) (f (vy v)) (vz v)
  | _ => V3 (vx v) (vy v) (f (vz v))
  end.
Definition get3 {A} (i : nat) (v : v3 A) : A :=
  match i with O => vx v | 1%nat => vy v | _ => vz v end.

(** integrator_utils.cc:111-125 [nextRayIndex]: [None] for false. The index
    components are unbounded integers here (int64 in the code). *)
Definition nextRayIndex (c : caster) : caster * option idx3 :=
  let step := u32 (rc_step c + 1) in
  if rc_len c <? rc_step c then
    (MkRC (rc_t c) (rc_cur c) (rc_sign c) (rc_dt c) (rc_len c) step, None)
  else
    let i := minCoeff (rc_t c) in
    (MkRC (upd3 i (fun t => fadd t (get3 i (rc_dt c))) (rc_t c))
          (upd3 i (fun x => x + get3 i (rc_sign c)) (rc_cur c))
          (rc_sign c) (rc_dt c) (rc_len c) step, Some (rc_cur c)).

(** the loop of [castRay], integrator_utils.h:139-142. [None]: [fuel] calls were
    not enough. *)
Fixpoint cast_loop (fuel : nat) (c : caster) : option (list idx3) :=
  match fuel with
  | O => None
  | S fuel' =>
      match nextRayIndex c with
      | (c', Some i) => match cast_loop fuel' c' with Some l => Some (i :: l) | None => None end
      | (_, None) => Some []
      end
  end.
(** integrator_utils.h:133-143 [castRay], with at most [fuel] calls of
    [nextRayIndex] *)
Definition castRay (fuel : nat) (garbage : caster) (start end_ : pt3) : res (option (list idx3)) :=
  rbind (setupRayCaster garbage start end_) (fun c => Ok (cast_loop fuel c)).

(** Eigen [normalized] of a float 3-vector (3.3): divides by the norm when the
    squared norm is positive *)
Definition normalized3 (v : pt3) : pt3 :=
  let z := sqnorm v in
  if fgt z f0 then map3 (fun c => fdiv c (fsqrt z)) v else v.
Definition pt_scale (p : pt3) (k : f32) : pt3 := map3 (fun c => fmul c k) p.

(** integrator_utils.cc:72-104 [RayCaster::RayCaster]: scaled start and end
    before [cast_from_origin] orders them *)
Definition ray_points (origin point : pt3) (is_clearing carving : bool)
  (max_ray_length voxel_size_inv trunc : f32) : pt3 * pt3 :=
  let unit_ray := normalized3 (pt_sub point origin) in
  let '(ray_start, ray_end) :=
    if is_clearing then
      let ray_length := norm3 (pt_sub point origin) in
      let ray_length := fmin (fmax (fsub ray_length trunc) f0) max_ray_length in
      let ray_end := pt_add origin (pt_scale unit_ray ray_length) in
      (if carving then origin else ray_end, ray_end)
    else
      (if carving then origin else pt_sub point (pt_scale unit_ray trunc),
       pt_add point (pt_scale unit_ray trunc)) in
  (pt_scale ray_start voxel_size_inv, pt_scale ray_end voxel_size_inv).
Definition RayCaster_new (garbage : caster) (origin point : pt3) (is_clearing carving : bool)
  (max_ray_length voxel_size_inv trunc : f32) (cast_from_origin : bool) : res caster :=
  let '(s, e) := ray_points origin point is_clearing carving max_ray_length voxel_size_inv trunc in
  if cast_from_origin then setupRayCaster garbage s e else setupRayCaster garbage e s.
