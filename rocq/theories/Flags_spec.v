(** Specification vocabulary for the update flags (C43). *)
From Coq Require Import ZArith List Bool.
From Verif Require Import F32 Types Index Voxel Assoc Layer Planning Esdf Esdf_spec Flags.
Import ListNotations.
Open Scope Z_scope.

(** the block has been written to, and since then it was not removed and no call of
    the given kind has cleared flags *)
Definition stale (clears : call -> bool) (vps : Z) (i : idx3) (ks : list call) : Prop :=
  exists before g f after, ks = before ++ CIntegrate g f :: after /\
    getBlockIndexFromGlobalVoxelIndex g (vps_inv_layer vps) = Some i /\
    Forall (fun k => clears k = false /\ k <> CRemove i) after.
Definition clears_mesh (k : call) : bool := match k with CMesh _ true => true | _ => false end.
Definition clears_esdf (k : call) : bool := match k with CEsdf true => true | _ => false end.
(** the ESDF has taken note of the seen voxels of a TSDF block: they are observed, and
    where the TSDF distance lies in the fixed band and the ESDF voxel is fixed, the
    two distances differ by at most the update threshold; where the TSDF distance lies
    outside the fixed band the ESDF voxel is not fixed, so propagation decides it *)
Definition within (c : econfig) (ed td : f32) : Prop :=
  (outside ed -> flt (fadd td (ec_min_diff c)) ed = false /\ flt ed (fsub td (ec_min_diff c)) = false) /\
  (inside ed -> flt ed (fsub td (ec_min_diff c)) = false /\ flt (fadd td (ec_min_diff c)) ed = false).
Definition noted (c : econfig) (tv : TsdfVoxel) (v : EsdfVoxel) : Prop :=
  e_observed v = true /\ e_hallucinated v = false /\
  (isFixed c (t_distance tv) = true -> e_fixed v = true -> within c (e_distance v) (t_distance tv)) /\
  (isFixed c (t_distance tv) = false -> e_fixed v = false).
Definition propagated (c : econfig) (t : Layer KTsdf) (e : Layer KEsdf) (i : idx3) : Prop :=
  forall n tv, vat t (i, n) = Some tv -> seen c tv -> exists v, vat e (i, n) = Some v /\ noted c tv v.
