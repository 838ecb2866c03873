(** Vocabulary for C31. *)
From Coq Require Import ZArith List Bool Reals.
From Flocq Require Import Core.
From Verif Require Import F32 F32_lemmas Types Index Neighbor Voxel Assoc Layer Queue Planning Esdf Esdf_spec EsdfOcc.
Import ListNotations.
Open Scope Z_scope.

(** the voxel stored for a global voxel index: that of the block [floor (g / vps)] at the index
    [g mod vps] *)
Definition cell {k} (l : Layer k) (g : idx3) : option (vox k) :=
  match l_get l (map3 (fun c => c / l_vps l) g) with
  | Some b => nth_error (b_voxels b)
      (Z.to_nat (computeLinearIndexFromVoxelIndex (l_vps l) (map3 (fun c => c mod l_vps l) g)))
  | None => None
  end.
(** layers as voxblox builds them: full blocks of the layer's size, each stored once, at indices
    whose neighbours fit an int *)
Record tidy {k} (l : Layer k) : Prop := MkTidy {
  td_vps : 0 < l_vps l <= 1024;
  td_keys : NoDup (akeys (l_blocks l));
  td_block : forall i b, l_get l i = Some b ->
    b_vps b = l_vps l /\ length (b_voxels b) = num_voxels (l_vps l) /\ all3 (fun c => Z.abs c < 2 ^ 31 - 1) i }.
Record occ_settings (c : ocfg) (vs : f32) : Prop := MkOccSettings {
  os_max_ok : ffin (oc_max c) = true /\ (0 < FR (oc_max c) < bpow radix2 126)%R;
  os_default_ok : ffin (oc_default c) = true /\ (0 < FR (oc_default c))%R;
  os_buckets_ok : 1 <= oc_buckets c <= 2 ^ 30;
  os_size_ok : ffin vs = true /\ (0 < FR vs /\ 2 * FR vs <= FR (oc_max c))%R }.
(** nothing is waiting in the integrator *)
Definition occ_idle (c : ocfg) (st : ostate) : Prop :=
  bq_num (os_open st) = oc_buckets c /\ bq_max (os_open st) = f64_of_f32 (oc_max c) /\
  bq_buckets (os_open st) = repeat [] (Z.to_nat (oc_buckets c)) /\ 0 <= bq_last (os_open st) /\ bq_count (os_open st) = 0.

Definition occupied (o : OccupancyVoxel) : Prop := o_observed o = true /\ fgt (o_log o) f0 = true.
Definition free (o : OccupancyVoxel) : Prop := o_observed o = true /\ fgt (o_log o) f0 = false.
(** [opath c occ vs below g d]: there is a 26-connected path of observed voxels from an occupied
    voxel to [g] of length [d], the lengths of its steps (1, sqrt 2 or sqrt 3 voxels) added up in
    floats one after the other; with [below] every proper prefix is shorter than the maximum
    distance *)
Inductive opath (c : ocfg) (occ : Layer KOcc) (vs : f32) (below : bool) : idx3 -> f32 -> Prop :=
| OP_start : forall g (o : OccupancyVoxel), cell occ g = Some o -> occupied o -> opath c occ vs below g f0
| OP_step : forall g off step d (o : OccupancyVoxel), opath c occ vs below g d ->
    (below = true -> flt d (oc_max c) = true) -> is_step vs off step ->
    cell occ (idx_add g off) = Some o -> o_observed o = true ->
    opath c occ vs below (idx_add g off) (fadd d step).
(** what a batch update makes of the occupancy layer *)
Definition distances_ok (c : ocfg) (occ : Layer KOcc) (esdf : Layer KEsdf) : Prop := forall g,
  match cell occ g with
  | None => cell esdf g = None
  | Some o => exists v : EsdfVoxel, cell esdf g = Some v /\ e_observed v = o_observed o /\
      (occupied o -> e_distance v = f0 /\ e_fixed v = true) /\
      (free o -> e_fixed v = false /\
         (* the default or the length of a path ... *)
         (e_distance v = oc_default c \/ opath c occ (l_size esdf) true g (e_distance v)) /\
         (* ... and no more than the default or the length of any path *)
         fle (e_distance v) (oc_default c) = true /\
         forall d, opath c occ (l_size esdf) true g d -> fle (e_distance v) d = true)
  end.
