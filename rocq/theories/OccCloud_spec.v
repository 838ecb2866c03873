(** What integrating a point cloud means for an occupancy map. *)
From Coq Require Import ZArith Reals List Bool Permutation.
From Flocq Require Import Core.
From Verif Require Import F32 F32_lemmas Types Index Voxel Assoc Layer Update Ray Mesh_spec Update_spec RayEnds_spec Cloud Cloud_spec OccCloud.
Import ListNotations.
Open Scope Z_scope.

(** [l'] is [l] after one hit for each voxel of [hit], one miss for each of [miss]: *)
Record occ_observed (cfg : OccConfig) (l : Layer KOcc) (hit miss : idx3 -> Prop) (l' : Layer KOcc) : Prop := {
  (** voxels have received one update, all others none *)
  oc_hits : forall g, hit g -> content l' g = updateOccupancyVoxel cfg true (content l g);
  oc_misses : forall g, miss g -> content l' g = updateOccupancyVoxel cfg false (content l g);
  oc_rest : forall g, ~ hit g -> ~ miss g -> content l' g = content l g;
  (** the blocks are those there were and those of updated voxels *)
  oc_blocks : forall b, hasBlock l' b = true <-> hasBlock l b = true \/ exists g, (hit g \/ miss g) /\ home_block l g = b;
  (** other blocks are the same, flags included *)
  oc_others : forall b, ~ (exists g, (hit g \/ miss g) /\ home_block l g = b) -> l_get l' b = l_get l b;
  (** blocks of updated voxels are marked for every consumer, and keep or get the geometry of a block at their
      index *)
  oc_marked : forall g, hit g \/ miss g -> exists x,
    l_get l' (home_block l g) = Some x /\ b_updated x = upd_all /\
    let x0 := match l_get l (home_block l g) with Some x0 => x0
              | None => new_block (l_vps l) (l_size l) (new_block_origin (l_vps l) (l_size l) (home_block l g)) end in
    b_vps x = b_vps x0 /\ b_size x = b_size x0 /\ b_origin x = b_origin x0 /\ b_has_data x = b_has_data x0;
  (** the layer stays well-formed *)
  oc_sound : sound_layer l' /\ l_size l' = l_size l /\ l_vps l' = l_vps l }.

(** what a point [p] is used for: nothing when it is nearer to the sensor than the minimum, clearing when it is
    farther than the maximum, otherwise a surface *)
Inductive occ_use : Type := Unused | Clears | Surface.
Definition occ_use_of (cfg : OccCloudConfig) (T : pose) (p : pt3) : occ_use :=
  let d := norm3 (pt_sub (p_apply T p) (p_position T)) in
  if flt d (oo_min_ray cfg) then Unused else if flt (oo_max_ray cfg) d then Clears else Surface.
(** where its ray ends: at the point, or at the maximum distance *)
Definition occ_end (cfg : OccCloudConfig) (T : pose) (p : pt3) : pt3 :=
  let o := p_position T in let q := p_apply T p in
  match occ_use_of cfg T p with
  | Clears => pt_add o (pt_scale (normalized3 (pt_sub q o)) (oo_max_ray cfg))
  | _ => q
  end.
(** the voxel the ray ends in *)
Definition end_voxel (cfg : OccCloudConfig) (l : Layer KOcc) (T : pose) (p : pt3) (v : idx3) : Prop :=
  getGridIndexFromScaledPoint (pt_scale (occ_end cfg T p) (inv_of (l_size l))) = Some v.
(** the voxels of its ray, from the sensor on (C24, C25) *)
Definition occ_ray (fuel : nat) (garbage : caster) (cfg : OccCloudConfig) (l : Layer KOcc) (T : pose) (p : pt3) (voxels : list idx3) : Prop :=
  castRay fuel garbage (pt_scale (p_position T) (inv_of (l_size l))) (pt_scale (occ_end cfg T p) (inv_of (l_size l))) = Ok (Some voxels).

(** [hit] and [seen] are the voxels that rays end in and that rays pass: *)
Record swept (fuel : nat) (garbage : caster) (cfg : OccCloudConfig) (l : Layer KOcc) (T : pose) (points : list pt3)
  (hit seen : idx3 -> Prop) : Prop := {
  (** a hit voxel is the last one on the ray of a surface point, of at least three *)
  sw_hit : forall g, hit g -> exists p voxels front,
    In p points /\ occ_use_of cfg T p = Surface /\ occ_ray fuel garbage cfg l T p voxels /\ (3 <= length voxels)%nat /\ voxels = front ++ [g];
  (** a passed voxel is on the ray of a clearing point, or before the last one on such a ray of a surface point *)
  sw_seen : forall g, seen g -> exists p voxels,
    In p points /\ occ_ray fuel garbage cfg l T p voxels /\
    (occ_use_of cfg T p = Clears /\ In g voxels \/
     occ_use_of cfg T p = Surface /\ (3 <= length voxels)%nat /\ exists front e, voxels = front ++ [e] /\ In g front);
  (** every surface point hits its voxel, or, with at least three voxels on its ray, the last one, all others being
      passed *)
  sw_surface : forall p, In p points -> occ_use_of cfg T p = Surface ->
    (exists v, end_voxel cfg l T p v /\ hit v) \/
    exists voxels, occ_ray fuel garbage cfg l T p voxels /\
      ((length voxels < 3)%nat \/ exists front e, voxels = front ++ [e] /\ hit e /\ forall g, In g front -> seen g);
  (** every clearing point clears its end voxel on another ray, or all voxels of its ray *)
  sw_clears : forall p, In p points -> occ_use_of cfg T p = Clears ->
    (exists v, end_voxel cfg l T p v /\ seen v) \/
    exists voxels, occ_ray fuel garbage cfg l T p voxels /\ forall g, In g voxels -> seen g }.

(** all rays stay within 2^24 voxels of the origin *)
Definition occ_rays_near (fuel : nat) (garbage : caster) (cfg : OccCloudConfig) (l : Layer KOcc) (T : pose) (points : list pt3) : Prop :=
  forall p voxels, In p points -> occ_use_of cfg T p <> Unused -> occ_ray fuel garbage cfg l T p voxels -> Forall near_index voxels.

(** the ray to [p] is not degenerate and stays within 2^20 voxels of the origin of the map *)
Definition occ_ray_fits (cfg : OccCloudConfig) (l : Layer KOcc) (T : pose) (p : pt3) : Prop :=
  let o := p_position T in let q := p_apply T p in
  ray_args o q f0 (oo_max_ray cfg) (inv_of (l_size l)) /\
  ((normR (map3 FR o) + normR (map3 FR q)) * FR (inv_of (l_size l)) <= bpow radix2 20)%R.
