(** What integrating a point cloud means for the map. *)
From Coq Require Import ZArith List Bool Permutation.
From Verif Require Import F32 Types Index Voxel Assoc Layer Update Threads Ray Mesh_spec Update_spec Cloud.
Import ListNotations.
Open Scope Z_scope.

(** indices up to 2^24 (C01) *)
Definition near_index (g : idx3) : Prop := all3 (fun c => Z.abs c <= 2 ^ 24) g.
(** the block voxel [g] belongs to *)
Definition home_block {k} (l : Layer k) (g : idx3) : idx3 := map3 (fun c => c / l_vps l) g.
(** blocks of 2^n voxels per side, all voxels present *)
Definition sound_layer {k} (l : Layer k) : Prop :=
  (exists n, 0 <= n <= 10 /\ l_vps l = 2 ^ n) /\
  forall i b, l_get l i = Some b ->
    b_vps b = l_vps l /\ Z.of_nat (length (b_voxels b)) = l_vps l * l_vps l * l_vps l.
(** the content of voxel [g]: unobserved where there is no block *)
Definition content {k} (l : Layer k) (g : idx3) : vox k :=
  match voxel_at l g with Some v => v | None => vdefault k end.
(** the observations of voxel [g] among [qs] *)
Definition about (g : idx3) (qs : list request) : list request := filter (fun q => idx_eqb (q_idx q) g) qs.
(** some observation is of a voxel in block [b] *)
Definition reaches {k} (l : Layer k) (qs : list request) (b : idx3) : Prop :=
  exists q, In q qs /\ home_block l (q_idx q) = b.

(** [l'] is [l] after the observations [qs]: *)
Record observed (cfg : TsdfConfig) (l : Layer KTsdf) (qs : list request) (l' : Layer KTsdf) : Prop := {
  (** every voxel has received exactly the observations about it, in this order, and no
      other voxel has changed *)
  ob_voxels : forall g, updates cfg (l_size l) (about g qs) (content l g) = Ok (content l' g);
  (** the blocks are those there were and those of observed voxels *)
  ob_blocks : forall b, hasBlock l' b = true <-> hasBlock l b = true \/ reaches l qs b;
  (** other blocks are the same, flags included *)
  ob_others : forall b, ~ reaches l qs b -> l_get l' b = l_get l b;
  (** blocks of observed voxels are marked for every consumer, and keep or get the geometry of a
      block at their index *)
  ob_marked : forall b, reaches l qs b -> exists x,
    l_get l' b = Some x /\ b_updated x = upd_all /\
    let x0 := match l_get l b with Some x0 => x0 | None => new_block (l_vps l) (l_size l) (new_block_origin (l_vps l) (l_size l) b) end in
    b_vps x = b_vps x0 /\ b_size x = b_size x0 /\ b_origin x = b_origin x0 /\ b_has_data x = b_has_data x0;
  (** the layer stays well-formed *)
  ob_sound : sound_layer l' /\ l_size l' = l_size l /\ l_vps l' = l_vps l }.

(** ** Clouds *)
Definition indices (cl : cloud) : list Z := map Z.of_nat (seq 0 (length (cl_points cl))).
Definition point_of (cl : cloud) (i : Z) : pt3 := nth (Z.to_nat i) (cl_points cl) (V3 f0 f0 f0).
Definition color_of (cl : cloud) (i : Z) : Color := nth (Z.to_nat i) (cl_colors cl) (MkColor 0 0 0 0).
(** what a point is used for: too near, not at all; too far, for clearing if that is enabled or the
    cloud is a freespace cloud; otherwise a surface, or clearing for a freespace cloud. [Some true]:
    clearing. *)
Definition use_of (cc : CloudConfig) (cl : cloud) (i : Z) : option bool :=
  let d := norm3 (point_of cl i) in
  if flt d (cc_min_ray cc) then None
  else if flt (cc_max_ray cc) d then
    if cl_freespace cl || (cc_allow_clear cc && cc_carving cc) then Some true else None
  else Some (cl_freespace cl).
(** the voxels of the ray to point [p] (C24, C25, C73) *)
Definition ray_voxels (fuel : nat) (garbage : caster) (cc : CloudConfig) (l : Layer KTsdf) (cl : cloud)
  (p : pt3) (clearing from_sensor : bool) (voxels : list idx3) : Prop :=
  ray_cells fuel garbage cc (l_size l) (p_position (cl_pose cl)) (p_apply (cl_pose cl) p) clearing from_sensor =
    Ok (Some voxels).
(** the observation of voxel [g] by point [i]: from the sensor, to the point in the map frame, with
    its colour and weight (C71) *)
Definition sees (cc : CloudConfig) (cl : cloud) (i : Z) (g : idx3) : request :=
  MkReq (p_position (cl_pose cl)) (p_apply (cl_pose cl) (point_of cl i)) g (color_of cl i)
        (getVoxelWeight (cc_tsdf cc) (point_of cl i)).
(** [cells i]: the voxels on the ray of point [i]; none for a point that is not used *)
Definition full_rays (fuel : nat) (garbage : caster) (cc : CloudConfig) (l : Layer KTsdf) (cl : cloud)
  (cells : Z -> list idx3) : Prop :=
  forall i, In i (indices cl) ->
    match use_of cc cl i with
    | None => cells i = []
    | Some clearing => ray_voxels fuel garbage cc l cl (point_of cl i) clearing true (cells i)
    end.
(** all rays stay within 2^24 voxels of the origin *)
Definition rays_near (fuel : nat) (garbage : caster) (cc : CloudConfig) (l : Layer KTsdf) (cl : cloud)
  (from_sensor : bool) : Prop :=
  forall i clearing voxels, In i (indices cl) -> use_of cc cl i = Some clearing ->
    ray_voxels fuel garbage cc l cl (point_of cl i) clearing from_sensor voxels -> Forall near_index voxels.

(** the ray of a point is cut: [n] voxels of it are kept. A cut needs more than [limit] voxels in a
    row that the set of seen voxels claims to know ([news] false). *)
Definition cut_at (limit : Z) (news : list bool) (voxels : list idx3) (n : nat) : Prop :=
  n = length voxels \/
  (n < length voxels)%nat /\ forall j, Z.of_nat n - limit <= Z.of_nat j <= Z.of_nat n -> nth j news true = false.
(** [cells i] of the fast integrator, rays cast from the far end *)
Definition cut_rays (fuel : nat) (garbage : caster) (cc : CloudConfig) (l : Layer KTsdf) (cl : cloud)
  (start_new : Z -> bool) (news : Z -> list bool) (begun : list Z) (cells : Z -> list idx3) : Prop :=
  forall i, In i begun ->
    match use_of cc cl i with
    | None => cells i = []
    | Some clearing =>
        if start_new i then
          exists voxels n, ray_voxels fuel garbage cc l cl (point_of cl i) clearing false voxels /\
            cells i = firstn n voxels /\ cut_at (cc_collisions cc) (news i) voxels n /\
            Z.min (Z.of_nat (length voxels)) (cc_collisions cc) <= Z.of_nat n
        else cells i = []
    end.

(** ** The merged integrator *)
(** the voxel point [i] falls into *)
Definition lands_in (l : Layer KTsdf) (cl : cloud) (i : Z) (v : idx3) : Prop :=
  getGlobalGridIndexFromPoint (p_apply (cl_pose cl) (point_of cl i)) (inv_of (l_size l)) = Some v.
Definition used_as (cc : CloudConfig) (cl : cloud) (clearing : bool) (i : Z) : bool :=
  match use_of cc cl i with Some c => Bool.eqb c clearing | None => false end.
(** [m]: for every voxel the points of this use that fall into it, every point once *)
Definition bundled (cc : CloudConfig) (l : Layer KTsdf) (cl : cloud) (clearing : bool) (m : bundle_map) : Prop :=
  NoDup (akeys m) /\ Permutation (concat (map snd m)) (filter (used_as cc cl clearing) (indices cl)) /\
  forall v is, In (v, is) m -> is <> [] /\ forall i, In i is -> lands_in l cl i v.
(** the colour, point and weight that stand for the points [is] (see C75_mean) *)
Definition merged (cc : CloudConfig) (cl : cloud) (clearing : bool) (is : list Z) (mc : Color) (mp : pt3) (mw : f32) : Prop :=
  merge_points cc cl clearing is (MkColor 0 0 0 0) (V3 f0 f0 f0) f0 = Ok (mc, mp, mw).
(** voxel [g] is left out of the ray of the bundle of voxel [own]: it is the voxel of another bundle
    of surface points *)
Definition grazed (cc : CloudConfig) (surfaces : bundle_map) (clearing : bool) (own g : idx3) : Prop :=
  cc_anti_grazing cc = true /\ In g (akeys surfaces) /\ (clearing = true \/ g <> own).
(** [qs]: one observation, of the merged point, for every voxel of its ray that is not left out *)
Definition bundle_seen (fuel : nat) (garbage : caster) (cc : CloudConfig) (l : Layer KTsdf) (cl : cloud)
  (surfaces : bundle_map) (clearing : bool) (bundle : idx3 * list Z) (qs : list request) : Prop :=
  exists mc mp mw voxels kept,
    merged cc cl clearing (snd bundle) mc mp mw /\
    ray_voxels fuel garbage cc l cl mp clearing true voxels /\
    (forall g, In g voxels -> kept g = true <-> ~ grazed cc surfaces clearing (fst bundle) g) /\
    qs = map (fun g => MkReq (p_position (cl_pose cl)) (p_apply (cl_pose cl) mp) g mc mw) (filter kept voxels).
(** all rays of the bundles stay within 2^24 voxels of the origin; [order]: the points in the order they
    are taken *)
Definition bundles_near (fuel : nat) (garbage : caster) (cc : CloudConfig) (l : Layer KTsdf) (cl : cloud) (order : list Z) : Prop :=
  forall surfaces clearings, bundles cc (l_size l) cl order = Ok (surfaces, clearings) ->
  forall (clearing : bool) b mc mp mw voxels, In b (if clearing then clearings else surfaces) ->
    merged cc cl clearing (snd b) mc mp mw -> ray_voxels fuel garbage cc l cl mp clearing true voxels -> Forall near_index voxels.
