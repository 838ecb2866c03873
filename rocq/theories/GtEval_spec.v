(** Vocabulary for C108: the error of a map against ground-truth points. *)
From Coq Require Import ZArith List Bool Reals.
From Flocq Require Import Core.
From Verif Require Import F32 F32_lemmas Types Voxel Layer Mesh_spec Interp Interp_spec GtEval.
Import ListNotations.
Open Scope Z_scope.

(** the voxel [g] of the point, up to rounding at its borders *)
Definition cell_of (l : Layer KTsdf) (p : pt3) (g : idx3) : Prop :=
  in_cell (l_vps l) (l_size l) (vx p) (vx g) /\ in_cell (l_vps l) (l_size l) (vy p) (vy g) /\ in_cell (l_vps l) (l_size l) (vz p) (vz g).
(** the distance of the map at the point: the trilinear interpolation of the eight voxels
    around it, up to rounding, or [d] when one of them is missing or not observed *)
Definition map_distance (l : Layer KTsdf) (D : R) (p : pt3) (d e : f32) : Prop :=
  exists g o,
    (surrounded (l_vps l) (l_size l) (vx p) (vx g) /\ surrounded (l_vps l) (l_size l) (vy p) (vy g) /\ surrounded (l_vps l) (l_size l) (vz p) (vz g)) /\
    (offset_ok (l_vps l) (l_size l) (vx p) (vx g) (vx o) /\ offset_ok (l_vps l) (l_size l) (vy p) (vy g) (vy o) /\
     offset_ok (l_vps l) (l_size l) (vz p) (vz g) (vz o)) /\
    match eight_voxels l g with
    | None => e = d
    | Some xs => ffin e = true /\
        (Rabs (FR e - trilinear (fun i => FR (nth i (map (getVoxelSdf KTsdf) xs) f0)) (FR (vx o)) (FR (vy o)) (FR (vz o)))
           <= / 2 ^ 14 * D + bpow radix2 (-140))%R
    end.
(** what the evaluation makes of a point: unknown, beyond two voxels in front of the
    surface (with the distance of its voxel), or with a distance of the map *)
Inductive verdict := Unknown | Outside (d : f32) | Within (e : f32).
(** the weight up to which a voxel does not count: 0.01 as a float *)
Definition least_weight : R := (10737418 / 2 ^ 30)%R.
(** ... at the point, whose voxel is the first component *)
Definition judged (l : Layer KTsdf) (D : R) (p : pt3) (m : idx3 * verdict) : Prop :=
  cell_of l p (fst m) /\
  match voxel_at l (fst m) with
  | None => snd m = Unknown
  | Some x =>
      if Rle_dec (FR (t_weight x)) least_weight then snd m = Unknown
      else if Rle_dec (2 * FR (l_size l)) (FR (t_distance x)) then snd m = Outside (t_distance x)
      else exists e, snd m = Within e /\ map_distance l D p (t_distance x) e
  end.
(** the error a point contributes; a point in front of the truncation distance counts as
    the truncation distance *)
Definition error_in (l : Layer KTsdf) (v : verdict) : list R :=
  match v with Unknown => [] | Outside _ => [(2 * FR (l_size l))%R] | Within e => [FR e] end.
Definition gt_errors (l : Layer KTsdf) (vs : list verdict) : list R := flat_map (error_in l) vs.
(** the distance a valid point is coloured by *)
Definition shown (v : verdict) : option f32 := match v with Unknown => None | Outside d => Some d | Within e => Some e end.
Definition is_unknown (v : verdict) : bool := match v with Unknown => true | _ => false end.
Definition is_outside (v : verdict) : bool := match v with Outside _ => true | _ => false end.
Definition tell {A} (f : A -> bool) (xs : list A) : Z := Z.of_nat (length (filter f xs)).
Definition rms_of (es : list R) : R := sqrt (fold_right (fun e s => e * e + s)%R 0%R es / INR (length es)).

(** finite weights, and finite distances of at most [D] metres, in a layer the API builds *)
Definition map_ok (l : Layer KTsdf) (D : R) : Prop :=
  built_layer l /\ (0 <= D <= 2 ^ 50)%R /\
  forall g v, voxel_at l g = Some v -> ffin (t_distance v) = true /\ (Rabs (FR (t_distance v)) <= D)%R /\ ffin (t_weight v) = true.
Definition cloud_ok (l : Layer KTsdf) (cloud : list pt3) : Prop :=
  Forall (point_in_range (l_size l)) cloud /\ Z.of_nat (length cloud) <= 2 ^ 29.
(** the same distances and weights everywhere *)
Definition same_but_colours (l l' : Layer KTsdf) : Prop :=
  l_size l' = l_size l /\ l_vps l' = l_vps l /\
  forall g, option_map (fun v => (t_distance v, t_weight v)) (voxel_at l' g) = option_map (fun v => (t_distance v, t_weight v)) (voxel_at l g).
(** the distance shown at voxel [h] after the points with these verdicts, in turn: that of
    the last valid point in the voxel *)
Fixpoint shade (ms : list (idx3 * verdict)) (h : idx3) : option f32 :=
  match ms with
  | [] => None
  | (g, v) :: ms' =>
      match shade ms' h with
      | Some d => Some d
      | None => if idx_eqb g h then shown v else None
      end
  end.
(** the report is that of these verdicts: exact counts, the RMS error and the fractions up to
    rounding, and "not a number" when nothing could be evaluated *)
Definition report_ok (l : Layer KTsdf) (vs : list verdict) (r : gt_report) : Prop :=
  gr_total r = Z.of_nat (length vs) /\ gr_unknown r = tell is_unknown vs /\ gr_outside r = tell is_outside vs /\
  (gt_errors l vs <> [] -> dfin (gr_rms r) = true /\
     (Rabs (DR (gr_rms r) - rms_of (gt_errors l vs)) <= / 1048576 * rms_of (gt_errors l vs) + bpow radix2 (-70))%R) /\
  (gt_errors l vs = [] -> dnan (gr_rms r) = true) /\
  (vs <> [] -> (Rabs (DR (gr_unknown_part r) - IZR (tell is_unknown vs) / IZR (Z.of_nat (length vs))) <= / 1048576)%R /\
               (Rabs (DR (gr_outside_part r) - IZR (tell is_outside vs) / IZR (Z.of_nat (length vs))) <= / 1048576)%R).
