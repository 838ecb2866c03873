(** Gradient queries and the query functions of the map classes:
    /repo/voxblox/include/voxblox/interpolator/interpolator_inl.h:14-153 and
    /repo/voxblox/src/core/esdf_map.cc:5-127. Definitions only. *)
From Coq Require Import ZArith List Bool.
From Verif Require Import F32 Types Index Voxel Layer Update Ray Interp.
Import ListNotations.
Open Scope Z_scope.

Section Queries.
  Context {k : vkind}.
  (** the order in which Eigen adds, see [interpMember] *)
  Variable rows : nat -> sum_order.
  Variable top : sum_order.
  Variable l : Layer k.

  (** interpolator_inl.h:14-23 [getDistance]; [None]: false *)
  Definition getDistance (pos : pt3) (interpolate : bool) : res (option f32) :=
    if interpolate then getInterpDistance rows top l pos else getNearestDistance l pos.
  (** layer.h [getBlockPtrByCoordinates] *)
  Definition blockAt (pos : pt3) : res (option (Block k)) :=
    rbind (of_opt (computeBlockIndexFromCoordinates (l_vps l) (l_size l) pos)) (fun bi => Ok (l_get l bi)).

  (** the zero vector with component [i] set *)
  Definition axis_offset (i : nat) (x : f32) : pt3 := upd3 i (fun _ => x) (V3 f0 f0 f0).
  (** interpolator_inl.h:59-69, the six queries in their order; [grad] so far. The result: the answer
      and the sums. *)
  Fixpoint grad_loop (pos : pt3) (interpolate : bool) (size : f32) (steps : list (nat * Z)) (grad : pt3) : res (bool * pt3) :=
    match steps with
    | [] => Ok (true, grad)
    | (i, sign) :: steps' =>
        rbind (getDistance (pt_add pos (axis_offset i (fmul (f32_of_Z sign) size))) interpolate) (fun d =>
        match d with
        | None => Ok (false, grad)
        | Some d => grad_loop pos interpolate size steps' (upd3 i (fun g => fadd g (fmul d (f32_of_Z sign))) grad)
        end)
    end.
  Definition grad_steps : list (nat * Z) := [(0%nat, -1); (0%nat, 1); (1%nat, -1); (1%nat, 1); (2%nat, -1); (2%nat, 1)].
  (** interpolator_inl.h:46-75 [getGradient]: the answer and [*grad], which was [grad0] *)
  Definition getGradient (pos : pt3) (interpolate : bool) (grad0 : pt3) : res (bool * pt3) :=
    rbind (blockAt pos) (fun b =>
    match b with
    | None => Ok (false, grad0)
    | Some b =>
        rbind (grad_loop pos interpolate (b_size b) grad_steps (V3 f0 f0 f0)) (fun r =>
        if fst r then Ok (true, map3 (fun g => fdiv g (fmul (f32_of_Z 2) (b_size b))) (snd r)) else Ok r)
    end).

  (** interpolator_inl.h:108-135: one component by a two-sided or one-sided difference; [None]: neither side is known *)
  Definition one_axis (pos : pt3) (size nearest : f32) (i : nat) : res (option f32) :=
    rbind (getDistance (pt_sub pos (axis_offset i size)) false) (fun left =>
    rbind (getDistance (pt_add pos (axis_offset i size)) false) (fun right =>
    Ok (match left, right with
        | Some a, Some b => Some (fdiv (fsub b a) (fmul (f32_of_Z 2) size))
        | Some a, None => Some (fdiv (fsub nearest a) size)
        | None, Some b => Some (fdiv (fsub b nearest) size)
        | None, None => None
        end))).
  (** interpolator_inl.h:77-153 [getAdaptiveDistanceAndGradient]; [None]: false *)
  Definition getAdaptive (pos : pt3) : res (option (f32 * pt3)) :=
    rbind (getDistance pos false) (fun nearest =>
    match nearest with
    | None => Ok None
    | Some nearest =>
        rbind (getDistance pos true) (fun interp =>
        rbind (blockAt pos) (fun b =>
        match b with
        | None => Ok None
        | Some b =>
            rbind (match interp with
                   | Some _ => getGradient pos true (V3 f0 f0 f0)
                   | None => Ok (false, V3 f0 f0 f0)
                   end) (fun full =>
            rbind (if fst full then Ok (Some (snd full))
                   else rbind (one_axis pos (b_size b) nearest 0) (fun gx =>
                        match gx with
                        | None => Ok None
                        | Some gx =>
                            rbind (one_axis pos (b_size b) nearest 1) (fun gy =>
                            match gy with
                            | None => Ok None
                            | Some gy =>
                                rbind (one_axis pos (b_size b) nearest 2) (fun gz =>
                                Ok (option_map (fun gz => V3 gx gy gz) gz))
                            end)
                        end)) (fun g =>
            match g with
            | None => Ok None
            | Some g =>
                match interp with
                | Some d => Ok (Some (d, g))
                | None =>
                    rbind (of_opt (computeTruncatedVoxelIndexFromCoordinates (b_vps b) (b_origin b) (inv_of (b_size b)) pos)) (fun v =>
                    let voxel_offset := pt_sub pos (computeCoordinatesFromVoxelIndex (b_origin b) (b_size b) v) in
                    Ok (Some (fadd nearest (dot3 voxel_offset g), g)))
                end
            end))
        end))
    end).
End Queries.

(** ** EsdfMap *)
Definition dpt : Type := v3 f64.
(** [position.cast<FloatingPoint>()] *)
Definition cast3 (p : dpt) : pt3 := map3 f32_of_f64 p.

Section EsdfMap.
  Variable rows : nat -> sum_order.
  Variable top : sum_order.
  Variable l : Layer KEsdf.

  (** esdf_map.cc:11-20 [getDistanceAtPosition]: the answer and [*distance], which was [d0] *)
  Definition getDistanceAtPosition (position : dpt) (interpolate : bool) (d0 : f64) : res (bool * f64) :=
    rbind (getDistance rows top l (cast3 position) interpolate) (fun d =>
    Ok (match d with Some d => (true, f64_of_f32 d) | None => (false, d0) end)).
  (** esdf_map.cc:30-51 [getDistanceAndGradientAtPosition]. With interpolation a failed [getDistance] leaves 0, without
      it the value of an unobserved voxel may be written ([nearest_raw]). *)
  Definition nearest_raw (pos : pt3) : res f32 :=
    rbind (getNearestVoxel l pos) (fun v => Ok (match v with Some v => e_distance v | None => f0 end)).
  Definition getDistanceAndGradientAtPosition (position : dpt) (interpolate : bool) : res (bool * f64 * dpt) :=
    let pos := cast3 position in
    rbind (getDistance rows top l pos interpolate) (fun d =>
    rbind (match d with Some d => Ok d | None => if interpolate then Ok f0 else nearest_raw pos end) (fun dist =>
    rbind (getGradient rows top l pos interpolate (V3 f0 f0 f0)) (fun g =>
    Ok (match d with Some _ => fst g | None => false end, f64_of_f32 dist, map3 f64_of_f32 (snd g))))).
  (** esdf_map.cc:53-63 [isObserved] *)
  Definition isObserved (position : dpt) : res bool :=
    rbind (getNearestVoxel l (cast3 position)) (fun v => Ok (match v with Some v => e_observed v | None => false end)).

  (** esdf_map.cc:68-83 [batchGetDistanceAtPosition]: the arrays afterwards; [Abort] stands for the exception *)
  Fixpoint batch_distances (positions : list dpt) (distances : list f64) (observed : list Z) : res (list f64 * list Z) :=
    match positions, distances, observed with
    | p :: ps, d :: ds, o :: os =>
        rbind (getDistanceAtPosition p true d) (fun r =>
        rbind (batch_distances ps ds os) (fun rest =>
        Ok (snd r :: fst rest, (if fst r then 1 else 0) :: snd rest)))
    | _, _, _ => Ok (distances, observed)
    end.
  Definition batchGetDistanceAtPosition (positions : list dpt) (distances : list f64) (observed : list Z) : res (list f64 * list Z) :=
    if (length distances <? length positions)%nat then Abort
    else if (length observed <? length positions)%nat then Abort
    else batch_distances positions distances observed.
  (** esdf_map.cc:88-112 [batchGetDistanceAndGradientAtPosition] *)
  Fixpoint batch_gradients (positions : list dpt) (distances : list f64) (gradients : list dpt) (observed : list Z)
    : res (list f64 * list dpt * list Z) :=
    match positions, distances, gradients, observed with
    | p :: ps, _ :: ds, _ :: gs, _ :: os =>
        rbind (getDistanceAndGradientAtPosition p true) (fun r =>
        let '(ok, d, g) := r in
        rbind (batch_gradients ps ds gs os) (fun rest =>
        let '(ds', gs', os') := rest in
        Ok (d :: ds', g :: gs', (if ok : bool then 1 else 0) :: os')))
    | _, _, _, _ => Ok (distances, gradients, observed)
    end.
  Definition batchGetDistanceAndGradientAtPosition (positions : list dpt) (distances : list f64) (gradients : list dpt) (observed : list Z)
    : res (list f64 * list dpt * list Z) :=
    if (length distances <? length positions)%nat then Abort
    else if (length observed <? length positions)%nat then Abort
    else if (length gradients <? length positions)%nat then Abort
    else batch_gradients positions distances gradients observed.
  (** esdf_map.cc:117-127 [batchIsObserved] *)
  Fixpoint batch_observed (positions : list dpt) (observed : list Z) : res (list Z) :=
    match positions, observed with
    | p :: ps, _ :: os =>
        rbind (isObserved p) (fun r =>
        rbind (batch_observed ps os) (fun rest => Ok ((if r : bool then 1 else 0) :: rest)))
    | _, _ => Ok observed
    end.
  Definition batchIsObserved (positions : list dpt) (observed : list Z) : res (list Z) :=
    if (length observed <? length positions)%nat then Abort else batch_observed positions observed.
End EsdfMap.
