(** The simulated world: /repo/voxblox/include/voxblox/simulation/objects.h,
    simulation_world_inl.h and src/simulation/simulation_world.cc. Definitions only.
    Float and double operations are those the C++ types give: a double literal such as
    2.0 makes the operation a double one, and a store into a FloatingPoint rounds. *)
From Coq Require Import ZArith List Bool.
From Verif Require Import F32 Types Index Voxel Serialize Assoc Layer Threads Planning Update Ray.
Import ListNotations.
Open Scope Z_scope.

(** objects.h: the four classes and their members *)
Inductive shape : Type :=
| Sphere (center : pt3) (radius : f32)
| Cube (center size : pt3)
| PlaneObject (center normal : pt3)
| Cylinder (center : pt3) (radius height : f32).
Record object : Type := MkObject { o_shape : shape; o_color : Color }.

Definition d2 : f64 := f64_of_Z 2.
Definition dmax (a b : f64) : f64 := if dlt a b then b else a.
(** [c - s / 2.0 - p] (double throughout) *)
Definition below_by (c s p : f32) : f64 := dsub (dsub (f64_of_f32 c) (ddiv (f64_of_f32 s) d2)) (f64_of_f32 p).
(** [p - c - s / 2.0] (the first difference is a float one) *)
Definition above_by (c s p : f32) : f64 := dsub (f64_of_f32 (fsub p c)) (ddiv (f64_of_f32 s) d2).
(** Eigen [maxCoeff] of three floats *)
Definition max_coeff (v : pt3) : f32 := fmax (vx v) (fmax (vy v) (vz v)).
(** objects.h:115-146 [Cube::getDistanceToPoint] *)
Definition cube_outside (c s p : f32) : f32 := f32_of_f64 (dmax (dmax (below_by c s p) d0) (above_by c s p)).
Definition cube_inside (c s p : f32) : f32 := f32_of_f64 (dmax (below_by c s p) (above_by c s p)).
Definition zip33 (f : f32 -> f32 -> f32 -> f32) (a b c : pt3) : pt3 :=
  V3 (f (vx a) (vx b) (vx c)) (f (vy a) (vy b) (vy c)) (f (vz a) (vz b) (vz c)).
Definition cube_dist (c s p : pt3) : f32 :=
  let distance := norm3 (zip33 cube_outside c s p) in
  if flt distance kEpsilon then max_coeff (zip33 cube_inside c s p) else distance.
(** squared norm of the first two components of a difference *)
Definition sq_xy (p c : pt3) : f32 :=
  fadd (fmul (fsub (vx p) (vx c)) (fsub (vx p) (vx c))) (fmul (fsub (vy p) (vy c)) (fsub (vy p) (vy c))).
(** objects.h:270-297 [Cylinder::getDistanceToPoint] *)
Definition cylinder_dist (c : pt3) (r h : f32) (p : pt3) : f32 :=
  let min_z := f32_of_f64 (dsub (f64_of_f32 (vz c)) (ddiv (f64_of_f32 h) d2)) in
  let max_z := f32_of_f64 (dadd (f64_of_f32 (vz c)) (ddiv (f64_of_f32 h) d2)) in
  let off z := fsqrt (fadd (fmax (fsub (sq_xy p c) (fmul r r)) f0) (fmul (fsub (vz p) z) (fsub (vz p) z))) in
  if fge (vz p) min_z && fle (vz p) max_z then fsub (fsqrt (sq_xy p c)) r
  else if fgt (vz p) max_z then off max_z
  else off min_z.
(** [getDistanceToPoint]: objects.h:60-63, 115-146, 220-229, 270-297 *)
Definition obj_dist (o : shape) (p : pt3) : f32 :=
  match o with
  | Sphere c r => fsub (norm3 (pt_sub c p)) r
  | Cube c s => cube_dist c s p
  | PlaneObject c n => fadd (dot3 n p) (fdiv (fneg (dot3 n c)) (norm3 n))
  | Cylinder c r h => cylinder_dist c r h p
  end.

(** ** Distances in a world *)
(** one turn of the loop over the objects, simulation_world.cc:39-44 *)
Definition closer (p : pt3) (m : f32) (o : object) : f32 :=
  let d := obj_dist (o_shape o) p in if flt d m then d else m.
(** simulation_world.cc:36-47 [getDistanceToPoint] *)
Definition getDistanceToPoint (w : list object) (p : pt3) (max_dist : f32) : f32 :=
  fold_left (closer p) w max_dist.
(** simulation_world_inl.h:54-61: the same with the colour *)
Definition closer_color (p : pt3) (m : f32 * Color) (o : object) : f32 * Color :=
  let d := obj_dist (o_shape o) p in if flt d (fst m) then (d, o_color o) else m.
Definition world_sdf (w : list object) (p : pt3) (max_dist : f32) : f32 * Color :=
  fold_left (closer_color p) w (max_dist, color0).
(** 64-65 and [setVoxel] for TsdfVoxel (73-79) *)
Definition sim_voxel (w : list object) (p : pt3) (max_dist : f32) : TsdfVoxel :=
  let (d, c) := world_sdf w p max_dist in
  MkTsdf (fmax d (fneg max_dist)) f1 c.
(** 46-51 *)
Definition in_bounds (lo hi p : pt3) : bool :=
  fge (vx p) (vx lo) && fle (vx p) (vx hi) && fge (vy p) (vy lo) && fle (vy p) (vy hi) &&
  fge (vz p) (vz lo) && fle (vz p) (vz hi).
(** 42-66: one voxel of a block *)
Definition sim_one (w : list object) (lo hi : pt3) (max_dist : f32) (b : Block KTsdf) (i : nat) (v : TsdfVoxel)
  : option TsdfVoxel :=
  match computeVoxelIndexFromLinearIndex (b_vps b) (Z.of_nat i) with
  | None => None
  | Some j =>
      let p := computeCoordinatesFromVoxelIndex (b_origin b) (b_size b) j in
      Some (if in_bounds lo hi p then sim_voxel w p max_dist else v)
  end.
Fixpoint sim_voxels (f : nat -> TsdfVoxel -> option TsdfVoxel) (i : nat) (vs : list TsdfVoxel)
  : option (list TsdfVoxel) :=
  match vs with
  | [] => Some []
  | v :: r => match f i v, sim_voxels f (S i) r with Some v', Some r' => Some (v' :: r') | _, _ => None end
  end.
(** 39-67: one block *)
Definition sim_block (w : list object) (lo hi : pt3) (max_dist : f32) (l : Layer KTsdf) (i : idx3)
  : res (Layer KTsdf) :=
  let l := allocateBlockPtrByIndex l i in
  match l_get l i with
  | None => UB
  | Some b => rbind (of_opt (sim_voxels (sim_one w lo hi max_dist b) 0 (b_voxels b)))
                (fun vs => Ok (set_block l i (set_voxels (k := KTsdf) vs)))
  end.
(** 24-36 [for (x = lo; x <= hi; x += step)]; [None]: not ended within [fuel] *)
Fixpoint fsteps (fuel : nat) (x hi step : f32) : option (list f32) :=
  if fle x hi then
    match fuel with
    | O => None
    | S n => match fsteps n (fadd x step) hi step with Some xs => Some (x :: xs) | None => None end
    end
  else Some [].
(** 24-36: the blocks visited ([block_size / 2.0] is a double quotient, narrowed) *)
Definition axis_samples (fuel : nat) (lo hi bs : f32) : option (list f32) :=
  let half := f32_of_f64 (ddiv (f64_of_f32 bs) d2) in
  fsteps fuel (fsub lo half) (fadd hi half) bs.
Definition sim_points (fuel : nat) (lo hi : pt3) (bs : f32) : option (list pt3) :=
  match axis_samples fuel (vx lo) (vx hi) bs, axis_samples fuel (vy lo) (vy hi) bs,
        axis_samples fuel (vz lo) (vz hi) bs with
  | Some xs, Some ys, Some zs => Some (flat_map (fun x => flat_map (fun y => map (fun z => V3 x y z) zs) ys) xs)
  | _, _, _ => None
  end.
Fixpoint all_some {A B} (f : A -> option B) (l : list A) : option (list B) :=
  match l with
  | [] => Some []
  | x :: r => match f x, all_some f r with Some y, Some ys => Some (y :: ys) | _, _ => None end
  end.
(** simulation_world_inl.h:14-70 [generateSdfFromWorld]; [Ok None]: a loop did not end *)
Definition generateSdfFromWorld (fuel : nat) (w : list object) (lo hi : pt3) (max_dist : f32) (l : Layer KTsdf)
  : res (option (Layer KTsdf)) :=
  match sim_points fuel lo hi (l_block_size l) with
  | None => Ok None
  | Some ps =>
      rbind (of_opt (all_some (computeBlockIndexFromCoordinates (l_vps l) (l_size l)) ps)) (fun bs =>
        rbind (rfold (sim_block w lo hi max_dist) bs l) (fun l' => Ok (Some l')))
  end.

(** ** Views *)
(** [ray_origin + d * ray_direction] *)
Definition ray_at (o d : pt3) (t : f32) : pt3 := zip3 (fun a b => fadd a (fmul t b)) o d.
Definition dhalf_of (x : f32) : f64 := ddiv (f64_of_f32 x) d2.
(** [pow(x, 2)] in double *)
Definition dsq (x : f32) : f64 := dmul (f64_of_f32 x) (f64_of_f32 x).
(** objects.h:65-98 [Sphere::getRayIntersection]: the distance of the hit *)
Definition sphere_hit (c : pt3) (r : f32) (o d : pt3) (max_dist : f32) : option f32 :=
  let e := pt_sub o c in
  let under := f32_of_f64 (dadd (dsub (dsq (dot3 d e)) (f64_of_f32 (sqnorm e))) (dsq r)) in
  if flt under f0 then None
  else
    let t := fsub (fneg (dot3 d e)) (fsqrt under) in
    if flt t f0 then None else if fgt t max_dist then None else Some t.
(** objects.h:148-200 [Cube::getRayIntersection] *)
Definition cube_hit (c s o d : pt3) (max_dist : f32) : option f32 :=
  let f2 := f32_of_Z 2 in
  let lo := zip3 (fun a b => fsub a (fdiv b f2)) c s in
  let hi := zip3 (fun a b => fadd a (fdiv b f2)) c s in
  let span (lo hi o d : f32) : f32 * f32 :=
    let inv := f32_of_f64 (ddiv d1 (f64_of_f32 d)) in
    if flt inv f0 then (fmul (fsub hi o) inv, fmul (fsub lo o) inv)
    else (fmul (fsub lo o) inv, fmul (fsub hi o) inv) in
  let '(tmin, tmax) := span (vx lo) (vx hi) (vx o) (vx d) in
  let '(tymin, tymax) := span (vy lo) (vy hi) (vy o) (vy d) in
  if fgt tmin tymax || fgt tymin tmax then None
  else
    let tmin := if fgt tymin tmin then tymin else tmin in
    let tmax := if flt tymax tmax then tymax else tmax in
    let '(tzmin, tzmax) := span (vz lo) (vz hi) (vz o) (vz d) in
    if fgt tmin tzmax || fgt tzmin tmax then None
    else
      let tmin := if fgt tzmin tmin then tzmin else tmin in
      let tmax := if flt tzmax tmax then tzmax else tmax in
      let t := if flt tmin f0 then tmax else tmin in
      if flt t f0 then None else if fgt t max_dist then None else Some t.
(** objects.h:231-252 [PlaneObject::getRayIntersection] *)
Definition plane_hit (c n o d : pt3) (max_dist : f32) : option f32 :=
  let den := dot3 d n in
  if flt (fabs den) kEpsilon then None
  else
    let t := fdiv (dot3 (pt_sub c o) n) den in
    if flt t f0 then None else if fgt t max_dist then None else Some t.
(** objects.h:299-397 [Cylinder::getRayIntersection] *)
Definition cylinder_hit (c : pt3) (r h : f32) (o d : pt3) (max_dist : f32) : option f32 :=
  let e := pt_sub o c in
  let f2 := f32_of_Z 2 in
  let a := fadd (fmul (vx d) (vx d)) (fmul (vy d) (vy d)) in
  let b := fadd (fmul (fmul f2 (vx e)) (vx d)) (fmul (fmul f2 (vy e)) (vy d)) in
  let cc := fsub (fadd (fmul (vx e) (vx e)) (fmul (vy e) (vy e))) (fmul r r) in
  if flt (fabs a) kEpsilon then None
  else
    let under := fsub (fmul b b) (fmul (fmul (f32_of_Z 4) a) cc) in
    if flt under f0 then None
    else
      let fm1 := f32_of_Z (-1) in
      let '(t1, t2) :=
        if fle under kEpsilon then (fdiv (fneg b) (fmul f2 a), fm1)
        else (fdiv (fadd (fneg b) (fsqrt under)) (fmul f2 a), fdiv (fsub (fneg b) (fsqrt under)) (fmul f2 a)) in
      let half := dhalf_of h in
      let mhalf := dhalf_of (fneg h) in
      let side t := let z := fadd (vz e) (fmul t (vz d)) in
        fge t f0 && dge (f64_of_f32 z) mhalf && dle (f64_of_f32 z) half in
      let cap hh := f32_of_f64 (ddiv (dsub hh (f64_of_f32 (vz e))) (f64_of_f32 (vz d))) in
      let cap_ok t := let qx := fadd (vx e) (fmul t (vx d)) in let qy := fadd (vy e) (fmul t (vy d)) in
        fgt (fabs (vz d)) kEpsilon && fge t f0 && flt (fsqrt (fadd (fmul qx qx) (fmul qy qy))) r in
      let t3 := cap mhalf in
      let t4 := cap half in
      let ts := filter (fun t => fst t)
        [(side t1, t1); (side t2, t2); (cap_ok t3, t3); (cap_ok t4, t4)] in
      match ts with
      | [] => None
      | _ => let t := fold_left (fun m x => fmin m (snd x)) ts max_dist in
             if fge t max_dist then None else Some t
      end.
Definition obj_hit (o : shape) (org dir : pt3) (max_dist : f32) : option f32 :=
  match o with
  | Sphere c r => sphere_hit c r org dir max_dist
  | Cube c s => cube_hit c s org dir max_dist
  | PlaneObject c n => plane_hit c n org dir max_dist
  | Cylinder c r h => cylinder_hit c r h org dir max_dist
  end.
(** simulation_world.cc:88-106: the hit kept after looking at one more object *)
Definition nearer (org dir : pt3) (max_dist : f32) (best : option (f32 * Color)) (o : object) : option (f32 * Color) :=
  match obj_hit (o_shape o) org dir max_dist with
  | None => best
  | Some t =>
      match best with
      | Some (t0, _) => if flt t t0 then Some (t, o_color o) else best
      | None => Some (t, o_color o)
      end
  end.
Definition pt_nan (p : pt3) : bool := fnan (vx p) || fnan (vy p) || fnan (vz p).
(** 84-116: one pixel; [dir] is its rotated direction (the rotation is minkindr's and
    is not modelled) *)
Definition sim_pixel (w : list object) (org : pt3) (max_dist : f32) (dir : pt3) : list (pt3 * Color) :=
  match fold_left (nearer org dir max_dist) w None with
  | None => []
  | Some (t, c) => let p := ray_at org dir t in if pt_nan p then [] else [(p, c)]
  end.
(** 61-117 [getPointcloudFromViewpoint], given the directions of the pixels in order *)
Definition getPointcloudFromViewpoint (w : list object) (org : pt3) (max_dist : f32) (dirs : list pt3)
  : list (pt3 * Color) := flat_map (sim_pixel w org max_dist) dirs.
