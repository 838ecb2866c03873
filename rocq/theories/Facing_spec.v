(** Vocabulary for the orientation of mesh triangles. *)
From Coq Require Import ZArith List Bool Reals.
From Flocq Require Import Core.
From Verif Require Import F32 F32_lemmas Types Update_spec Merge_proofs Marching Mesh_spec.
Import ListNotations.
Open Scope R_scope.

Definition crossR (a b : v3 R) : v3 R :=
  V3 (vy a * vz b - vz a * vy b) (vz a * vx b - vx a * vz b) (vx a * vy b - vy a * vx b).
Definition vsub (a b : v3 R) : v3 R := zip3 Rminus a b.
Definition vadd (a b : v3 R) : v3 R := zip3 Rplus a b.
Definition vscale (k : R) (a : v3 R) : v3 R := map3 (Rmult k) a.

(** the corners of a unit cube *)
Definition corner_pos (i : nat) : v3 R := map3 IZR (corner_offset i).
(** the negative and the other end of an edge *)
Definition neg_end (s : nat -> f32) (e : nat) : nat :=
  if flt (s (fst (edge_ends e))) f0 then fst (edge_ends e) else snd (edge_ends e).
Definition pos_end (s : nat -> f32) (e : nat) : nat :=
  if flt (s (fst (edge_ends e))) f0 then snd (edge_ends e) else fst (edge_ends e).
(** the direction along the edge from the negative end (behind the surface) to the other end (in
    front of it) *)
Definition to_front (s : nat -> f32) (e : nat) : v3 R := vsub (corner_pos (pos_end s e)) (corner_pos (neg_end s e)).
(** the point of the edge at fraction [tau] of the way *)
Definition on_edge (s : nat -> f32) (tau : R) (e : nat) : v3 R :=
  vadd (corner_pos (neg_end s e)) (vscale tau (to_front s e)).
(** the direction in which the corners a, b, c of a triangle are seen counterclockwise *)
Definition facing (a b c : v3 R) : v3 R := crossR (vsub b a) (vsub c a).

(** ** stored normals *)
(** the exact normal direction of a triangle of floats *)
Definition normal_dir (p q r : pt3) : v3 R := crossR (sub3R q p) (sub3R r p).
(** coordinates up to 2^20, at least 2^-40 of doubled area, no angle at p flatter than 2^-16 *)
Definition wide_triangle (p q r : pt3) : Prop :=
  all3 (fin_upto 20) p /\ all3 (fin_upto 20) q /\ all3 (fin_upto 20) r /\
  bpow radix2 (-40) <= normR (normal_dir p q r) /\
  bpow radix2 (-16) * (normR (sub3R q p) * normR (sub3R r p)) <= normR (normal_dir p q r).
(** each component of n differs from the exact unit normal by at most 2^-19 over the sine of the angle at p *)
Definition unit_normal (p q r n : pt3) : Prop :=
  let N := normal_dir p q r in
  let slack := bpow radix2 (-19) * (normR (sub3R q p) * normR (sub3R r p)) / normR N in
  all3 (fun c => ffin c = true) n /\
  Rabs (FR (vx n) - vx N / normR N) <= slack /\ Rabs (FR (vy n) - vy N / normR N) <= slack /\
  Rabs (FR (vz n) - vz N / normR N) <= slack.
(** [ns] holds, for each triangle (three consecutive vertices), the same normal three times, and that
    normal satisfies [P] *)
Inductive normals_of (P : pt3 -> pt3 -> pt3 -> pt3 -> Prop) : list pt3 -> list pt3 -> Prop :=
| no_nil : normals_of P [] []
| no_cons : forall p q r n vs ns, P p q r n -> normals_of P vs ns -> normals_of P (p :: q :: r :: vs) (n :: n :: n :: ns).
