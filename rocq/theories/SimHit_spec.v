(** Vocabulary for C69: rays and surfaces in real geometry. *)
From Coq Require Import ZArith Reals List.
From Flocq Require Import Core.
From Verif Require Import F32 F32_lemmas Types Update_spec Sim Sim_spec.
Open Scope R_scope.

(** the point at parameter [t] of the ray from [o] in direction [d] *)
Definition on_ray (o d : pt3) (t : R) : v3 R :=
  V3 (FR (vx o) + t * FR (vx d)) (FR (vy o) + t * FR (vy d)) (FR (vz o) + t * FR (vz d)).
Definition vsub (a b : v3 R) : v3 R := V3 (vx a - vx b) (vy a - vy b) (vz a - vz b).
(** signed height over the plane through [c] with normal [n] *)
Definition height (c n q : v3 R) : R := dotR n (vsub q c).
(** how far a point is inside (negative) or outside the sphere, in squared distance *)
Definition sphere_level (c : v3 R) (r : R) (q : v3 R) : R := dotR (vsub q c) (vsub q c) - r * r.
(** a direction of length one, up to rounding *)
Definition unit_dir (d : pt3) : Prop :=
  ffin (vx d) = true /\ ffin (vy d) = true /\ ffin (vz d) = true /\ Rabs (dotR (V3R d) (V3R d) - 1) <= / 100000.
(** the box of centre [c] and size [s], grown by [e] on every side (shrunk, when negative) *)
Definition box_grown (c s : v3 R) (e : R) (q : v3 R) : Prop :=
  Rabs (vx q - vx c) <= vx s / 2 + e /\ Rabs (vy q - vy c) <= vy s / 2 + e /\ Rabs (vz q - vz c) <= vz s / 2 + e.
(** within [e] of one of the planes of its faces *)
Definition at_face (c s : v3 R) (e : R) (q : v3 R) : Prop :=
  Rabs (Rabs (vx q - vx c) - vx s / 2) <= e \/ Rabs (Rabs (vy q - vy c) - vy s / 2) <= e \/ Rabs (Rabs (vz q - vz c) - vz s / 2) <= e.
(** how far a point is inside (negative) or outside the side of the upright cylinder, in squared distance *)
Definition side_level (c : v3 R) (r : R) (q : v3 R) : R :=
  (vx q - vx c) * (vx q - vx c) + (vy q - vy c) * (vy q - vy c) - r * r.
(** the ray moves across this axis, or runs parallel to its two faces without lying in the plane of either *)
Definition off_faces (M : R) (c s o d : f32) : Prop :=
  bpow radix2 (-80) <= Rabs (FR d) \/
  (FR d = 0 /\ / 1000000 * M < Rabs (FR o - (FR c - FR s / 2)) /\ / 1000000 * M < Rabs (FR o - (FR c + FR s / 2))).
(** finite and at most [M] in size *)
Definition within (M : R) (a : f32) : Prop := ffin a = true /\ Rabs (FR a) <= M.
(** a scene of size [M]: the centre of an object, the origin of a ray and the range of the sensor *)
Definition scene (M : R) (c o : pt3) (m : f32) : Prop :=
  (1 <= M <= bpow radix2 38) /\ all3 (within M) c /\ all3 (within M) o /\ within M m.
(** coordinates of a direction *)
Definition direction (d : pt3) : Prop := all3 (within (1 + / 1000)) d.
(** boxes: their size, and rays that do not lie in the plane of a face *)
Definition clear_of_faces (M : R) (c s o d : pt3) : Prop :=
  off_faces M (vx c) (vx s) (vx o) (vx d) /\ off_faces M (vy c) (vy s) (vy o) (vy d) /\ off_faces M (vz c) (vz s) (vz o) (vz d).
Definition box_size (M : R) (s : pt3) : Prop := all3 (within M) s /\ 0 <= FR (vx s) /\ 0 <= FR (vy s) /\ 0 <= FR (vz s).
