(** Vocabulary for the normals and colours of connected meshes. *)
From Coq Require Import ZArith List Bool Reals.
From Verif Require Import F32 Types Voxel Layer Marching MeshInt.
Import ListNotations.
Open Scope R_scope.

(** a normal of length 1, up to rounding *)
Definition unit_length (n : pt3) : Prop :=
  all3 (fun c => ffin c = true) n /\
  Rabs (FR (vx n) * FR (vx n) + FR (vy n) * FR (vy n) + FR (vz n) * FR (vz n) - 1) <= / 100000.
(** normals of the input: finite with components of at most 2 *)
Definition modest (n : pt3) : Prop := all3 (fun c => ffin c = true /\ Rabs (FR c) <= 2) n.
(** every vertex has the colour it had in the input *)
Definition colored_from (ms : list mesh) (out : mesh) : Prop :=
  forall j v c, nth_error (m_vertices out) j = Some v -> nth_error (m_colors out) j = Some c ->
    exists m i, In m ms /\ nth_error (m_vertices m) i = Some v /\ nth_error (m_colors m) i = Some c.
