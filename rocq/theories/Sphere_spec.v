(** Vocabulary for the statements about spheres. *)
From Coq Require Import ZArith List Bool Reals.
From Verif Require Import F32 F32_lemmas Index_float Types Index Voxel Assoc Layer Planning Esdf_spec Interp_spec.
Import ListNotations.
Open Scope Z_scope.

(** length of a vector *)
Definition nrm (x y z : R) : R := sqrt (x * x + y * y + z * z).
(** the global indices of the voxels in a list of voxels per block *)
Definition voxels_of (vps : Z) (m : amap (list idx3)) : list idx3 :=
  map (fun bv => getGlobalVoxelIndexFromBlockAndVoxelIndex (fst bv) (snd bv) vps) (hier_list m).
(** distance between the centre of voxel [g] and the point [c], in voxels *)
Definition centre_dist (s : f32) (c : pt3) (g : idx3) : R :=
  nrm (IZR (vx g) + / 2 - FR (vx c) / FR s) (IZR (vy g) + / 2 - FR (vy c) / FR s) (IZR (vz g) + / 2 - FR (vz c) / FR s).
(** a radius of at most 2^16 voxels *)
Definition radius_in_range (s r : f32) : Prop :=
  ffin r = true /\ (0 <= FR r)%R /\ (FR r / FR s <= 65535)%R.
(** the layers that spheres are written to: exact indices, blocks where the API puts
    them *)
Definition sphere_layer {k} (l : Layer k) : Prop := regular l /\ built_layer l.
(** the block of a voxel *)
Definition block_of (vps : Z) (g : idx3) : idx3 := map3 (fun c => c / vps) g.
(** the position of a voxel's centre, as a block computes it *)
Definition voxel_centre (vps : Z) (s : f32) (g : idx3) : pt3 :=
  computeCoordinatesFromVoxelIndex (new_block_origin vps s (block_of vps g)) s (map3 (fun c => c mod vps) g).
(** what a sphere does to a voxel [v] whose centre is at [p]: filling takes the
    distance from the sphere's surface, negative inside, if that is smaller *)
Definition filled (p c : pt3) (r mx : f32) (v : EsdfVoxel) : EsdfVoxel :=
  let d := fmax (fsub (fnorm (pt_sub p c)) r) (fneg mx) in
  if negb (e_observed v) || flt d (e_distance v)
  then MkEsdf d true true (e_in_queue v) true (e_parent v) else v.
(** clearing takes the distance from the surface, positive inside, if that is larger *)
Definition cleared (p c : pt3) (r mx : f32) (v : EsdfVoxel) : EsdfVoxel :=
  let d := fmin (fsub r (fnorm (pt_sub p c))) mx in
  if negb (e_observed v) || flt (e_distance v) d
  then MkEsdf d true true (e_in_queue v) true (e_parent v) else v.
(** the effect on the voxels: [vs] are changed by [f] (new ones start from the
    default), blocks of [vs] are allocated, everything else stays *)
Definition sphere_effect (l l' : Layer KEsdf) (vs : list idx3) (f : idx3 -> EsdfVoxel -> EsdfVoxel) : Prop :=
  l_size l' = l_size l /\ l_vps l' = l_vps l /\
  (forall i, (exists g, In g vs /\ block_of (l_vps l) g = i) \/ l_get l' i = l_get l i) /\
  (forall g, In g vs -> at_index (k := KEsdf) l' g = Some (f g (match at_index (k := KEsdf) l g with Some v => v | None => vdefault KEsdf end))) /\
  (forall g, exact_index g -> ~ In g vs -> (exists h, In h vs /\ block_of (l_vps l) h = block_of (l_vps l) g) ->
     at_index (k := KEsdf) l' g = Some (match at_index (k := KEsdf) l g with Some v => v | None => vdefault KEsdf end)).
