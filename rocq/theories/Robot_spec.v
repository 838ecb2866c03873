(** Vocabulary for the statements about robot positions. *)
From Coq Require Import ZArith List Bool Reals.
From Verif Require Import F32 Types Index Voxel Layer Queue Planning Esdf Esdf_spec Sphere_spec.
Import ListNotations.
Open Scope Z_scope.

(** the voxel at an index; voxels of blocks that do not exist count as new *)
Definition value_at (l : Layer KEsdf) (g : idx3) : EsdfVoxel :=
  match at_index (k := KEsdf) l g with Some v => v | None => vdefault KEsdf end.
(** a voxel that is assumed to be free, or occupied: seen, marked as hallucinated, at
    the default distance, with no parent *)
Definition told_free (c : econfig) (v : EsdfVoxel) : EsdfVoxel :=
  MkEsdf (ec_default c) true true (e_in_queue v) (e_fixed v) (V3 0 0 0).
Definition told_occupied (c : econfig) (v : EsdfVoxel) : EsdfVoxel :=
  MkEsdf (fneg (ec_default c)) true true (e_in_queue v) (e_fixed v) (V3 0 0 0).
(** what the robot's position may overwrite: voxels never seen and, close to the robot,
    voxels that were only assumed *)
Definition cleared_by_robot (v : EsdfVoxel) : Prop := e_observed v = false \/ e_hallucinated v = true.
(** the voxels after a robot position, [near] and [far] being the two spheres *)
Definition robot_effect (c : econfig) (l l' : Layer KEsdf) (near far : list idx3) : Prop :=
  l_size l' = l_size l /\ l_vps l' = l_vps l /\
  (forall g, In g near -> cleared_by_robot (value_at l g) -> at_index (k := KEsdf) l' g = Some (told_free c (value_at l g))) /\
  (forall g, In g far -> ~ In g near -> e_observed (value_at l g) = false -> at_index (k := KEsdf) l' g = Some (told_occupied c (value_at l g))) /\
  (forall g, In g near -> ~ cleared_by_robot (value_at l g) -> at_index (k := KEsdf) l' g = Some (value_at l g)) /\
  (forall g, In g far -> ~ In g near -> e_observed (value_at l g) = true -> at_index (k := KEsdf) l' g = Some (value_at l g)) /\
  (forall g, exact_index g -> ~ In g near -> ~ In g far -> value_at l' g = value_at l g) /\
  (forall i, (exists g, (In g near \/ In g far) /\ block_of (l_vps l) g = i) \/ l_get l' i = l_get l i).
(** the voxels it overwrites *)
Definition overwritten (l : Layer KEsdf) (near far : list idx3) (g : idx3) : Prop :=
  (In g near /\ cleared_by_robot (value_at l g)) \/ (In g far /\ ~ In g near /\ e_observed (value_at l g) = false).
(** a queue after pushing voxels with their distances, in order *)
Inductive queued : bq idx3 -> list (idx3 * f32) -> bq idx3 -> Prop :=
| QD_none : forall q, queued q [] q
| QD_more : forall q g d q1 r q2, bq_push q g (f64_of_f32 d) = Ok q1 -> queued q1 r q2 -> queued q ((g, d) :: r) q2.
