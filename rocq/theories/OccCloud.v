(** Whole point clouds into occupancy maps:
    /repo/voxblox/include/voxblox/integrator/occupancy_integrator.h. Definitions only. *)
From Coq Require Import ZArith List Bool.
From Verif Require Import F32 Types Index Voxel Serialize Assoc Layer Threads Update Ray Planning Cloud.
Import ListNotations.
Open Scope Z_scope.

(** lines 25-35 [Config], lines 52-57 the probabilities as log odds *)
Record OccCloudConfig : Type := MkOCC { oo_log : OccConfig; oo_min_ray : f32; oo_max_ray : f32 }.

(** [LongIndexSet]: a list without repetitions; the order of iteration is chosen in
    [occ_integrate] *)
Definition cell_in (g : idx3) (s : list idx3) : bool := existsb (idx_eqb g) s.
Definition set_insert (s : list idx3) (g : idx3) : list idx3 := if cell_in g s then s else g :: s.
Definition set_insert_all (s gs : list idx3) : list idx3 := fold_left set_insert gs s.

Section OccPoints.
  Variable fuel : nat.
  Variable garbage : caster.
  Variable cfg : OccCloudConfig.
  Variable inv : f32.        (* voxel_size_inv_ *)
  Variable T : pose.

  (** lines 89-124, one point. [sets]: [free_cells], [occupied_cells]. [Ok None]: [fuel] calls of
      [nextRayIndex] were not enough. [max_ray_length_m * unit_ray] is written with the factors exchanged. *)
  Definition occ_point (sets : list idx3 * list idx3) (point_C : pt3) : res (option (list idx3 * list idx3)) :=
    let '(free, occupied) := sets in
    let origin := p_position T in
    let start_scaled := pt_scale origin inv in
    let point_G := p_apply T point_C in
    let unit_ray := normalized3 (pt_sub point_G origin) in
    let ray_distance := norm3 (pt_sub point_G origin) in
    if flt ray_distance (oo_min_ray cfg) then Ok (Some sets)
    else if fgt ray_distance (oo_max_ray cfg) then
      let end_scaled := pt_scale (pt_add origin (pt_scale unit_ray (oo_max_ray cfg))) inv in
      rbind (of_opt (getGridIndexFromScaledPoint end_scaled)) (fun e =>
      if cell_in e free then Ok (Some sets) else
      obind (castRay fuel garbage start_scaled end_scaled) (fun cells =>
      Ok (Some (set_insert_all free cells, occupied))))
    else
      let end_scaled := pt_scale point_G inv in
      rbind (of_opt (getGridIndexFromScaledPoint end_scaled)) (fun e =>
      if cell_in e occupied then Ok (Some sets) else
      obind (castRay fuel garbage start_scaled end_scaled) (fun cells =>
      if 2 <? Z.of_nat (length cells)
      then Ok (Some (set_insert_all free (removelast cells), set_insert occupied (last cells e)))
      else Ok (Some sets))).
  Fixpoint occ_points (sets : list idx3 * list idx3) (points : list pt3) : res (option (list idx3 * list idx3)) :=
    match points with
    | [] => Ok (Some sets)
    | p :: points' => obind (occ_point sets p) (fun sets' => occ_points sets' points')
    end.
End OccPoints.

(** lines 141-154 and 159-172, one voxel. The cache is [last_block_idx], [None] when [block] is null. *)
Definition occ_touch (cfg : OccConfig) (occupied : bool) (s : Layer KOcc * option idx3) (g : idx3)
  : res (Layer KOcc * option idx3) :=
  let '(l, cached) := s in
  rbind (of_opt (getBlockIndexFromGlobalVoxelIndex g (vps_inv_common (l_vps l)))) (fun bi =>
  rbind (getLocalFromGlobalVoxelIndex g (l_vps l)) (fun loc =>
  rbind
    (if match cached with Some b => idx_eqb bi b | None => false end then Ok l
     else let l := allocateBlockPtrByIndex l bi in
          rbind (of_opt (l_get l bi)) (fun b => Ok (with_blocks l (aset bi (set_updated upd_all b) (l_blocks l))))) (fun l =>
  rbind (of_opt (l_get l bi)) (fun b =>
  let n := Z.to_nat (computeLinearIndexFromVoxelIndex (b_vps b) loc) in
  rbind (of_opt (nth_error (b_voxels b) n)) (fun v =>
  let b' := set_voxels (k:=KOcc) (set_th n (updateOccupancyVoxel cfg occupied v) (b_voxels b)) b in
  Ok (with_blocks l (aset bi b' (l_blocks l)), Some bi)))))).

(** lines 78-178 [integratePointCloud]. [walk1], [walk2]: the order in which the hash sets are iterated *)
Definition occ_integrate (fuel : nat) (garbage : caster) (cfg : OccCloudConfig) (T : pose) (points : list pt3)
  (walk1 walk2 : list idx3 -> list idx3) (l : Layer KOcc) : res (option (Layer KOcc)) :=
  obind (occ_points fuel garbage cfg (inv_of (l_size l)) T ([], []) points) (fun sets =>
  let '(free, occupied) := sets in
  let free := filter (fun g => negb (cell_in g occupied)) free in
  rbind (rfold (occ_touch (oo_log cfg) false) (walk1 free) (l, None)) (fun s =>
  rbind (rfold (occ_touch (oo_log cfg) true) (walk2 occupied) (fst s, None)) (fun s =>
  Ok (Some (fst s))))).
