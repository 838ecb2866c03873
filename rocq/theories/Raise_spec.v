(** Specification vocabulary for withdrawing distances from an ESDF (C85). *)
From Coq Require Import ZArith List Bool Reals.
From Verif Require Import F32 F32_lemmas Types Index Neighbor Voxel Layer Queue Planning Esdf Esdf_spec.
Import ListNotations.
Open Scope Z_scope.

(** [h] is one of the 26 neighbours of [g], [off] away from it *)
Definition beside (g off h : idx3) : Prop := In off (map fst neighbors26) /\ h = idx_add g off.
(** a voxel the propagation may change *)
Definition movable (l : Layer KEsdf) (h : idx3) (w : EsdfVoxel) : Prop :=
  at_index l h = Some w /\ e_observed w = true /\ e_fixed w = false.
(** the movable voxel [h] has its distance from its neighbour [g]: its parent points there *)
Definition hangs_on (l : Layer KEsdf) (g h : idx3) : Prop :=
  exists off w, beside g off h /\ movable l h w /\ e_parent w = idx_opp off.
(** [h] has its distance, directly or through other voxels, from one of [roots] *)
Inductive derived (l : Layer KEsdf) (roots : list idx3) : idx3 -> Prop :=
| DE_root : forall g h, In g roots -> hangs_on l g h -> derived l roots h
| DE_step : forall g h, derived l roots g -> hangs_on l g h -> derived l roots h.
(** the distance is forgotten: back to the default, on the same side of the surface (a distance of zero stays zero), and no parent *)
Definition forgotten (c : econfig) (w w' : EsdfVoxel) : Prop :=
  (outside (e_distance w) -> FR (e_distance w') = FR (ec_default c)) /\
  ((ER (e_distance w) < 0)%R -> FR (e_distance w') = (- FR (ec_default c))%R) /\
  (fnan (e_distance w) = false -> ER (e_distance w) = 0%R -> FR (e_distance w') = 0%R) /\ ffin (e_distance w') = true /\ e_parent w' = V3 0 0 0.
(** the roots are voxels of the layer *)
Definition roots_ok (st : estate) : Prop := forall g, In g (es_raise st) -> exact_index g /\ at_index (es_layer st) g <> None.
(** distances the bucket queue accepts: numbers not below minus twice the maximum *)
Definition queueable (c : econfig) (d : f32) : Prop := fnan d = false /\ (- (2 * FR (ec_max c)) <= ER d)%R.
(** a queue reached from another by [n] pushes *)
Inductive pushes : bq idx3 -> nat -> bq idx3 -> Prop :=
| PU_none : forall q, pushes q 0 q
| PU_more : forall q n q1 g d q2, pushes q n q1 -> bq_push q1 g d = Ok q2 -> pushes q (S n) q2.
