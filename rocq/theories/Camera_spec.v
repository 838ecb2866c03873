(** What a camera sees. *)
From Coq Require Import ZArith List Bool Reals.
From Flocq Require Import Core.
From Verif Require Import F32 F32_lemmas Types Update_spec Facing_spec.
Import ListNotations.
Open Scope R_scope.

(** a pose: where the camera is and its three axes; a point given in the camera frame *)
Record pose := MkPose { p_at : v3 R; p_x : v3 R; p_y : v3 R; p_z : v3 R }.
Definition placed (T : pose) (q : v3 R) : v3 R :=
  V3 (vx (p_at T) + (vx (p_x T) * vx q + vx (p_y T) * vy q + vx (p_z T) * vz q))
     (vy (p_at T) + (vy (p_x T) * vx q + vy (p_y T) * vy q + vy (p_z T) * vz q))
     (vz (p_at T) + (vz (p_x T) * vx q + vz (p_y T) * vy q + vz (p_z T) * vz q)).
Definition det (T : pose) : R :=
  vx (p_x T) * (vy (p_y T) * vz (p_z T) - vz (p_y T) * vy (p_z T)) -
  vy (p_x T) * (vx (p_y T) * vz (p_z T) - vz (p_y T) * vx (p_z T)) +
  vz (p_x T) * (vx (p_y T) * vy (p_z T) - vy (p_y T) * vx (p_z T)).
Definition inner (a b : v3 R) : R := vx a * vx b + vy a * vy b + vz a * vz b.
(** perpendicular unit axes, not mirrored *)
Definition rigid (T : pose) : Prop :=
  inner (p_x T) (p_x T) = 1 /\ inner (p_y T) (p_y T) = 1 /\ inner (p_z T) (p_z T) = 1 /\
  inner (p_x T) (p_y T) = 0 /\ inner (p_x T) (p_z T) = 0 /\ inner (p_y T) (p_z T) = 0 /\ 0 < det T.
(** the camera looks along x: between the distances and within the angles *)
Definition seen (near far tan_h tan_v : R) (q : v3 R) : Prop :=
  near <= vx q <= far /\ Rabs (vy q) <= tan_h * vx q /\ Rabs (vz q) <= tan_v * vx q.

(** the six sides of the volume between the corners c0..c3 (near) and c4..c7 (far), each
    given by three of its corners, in the order that makes the normal point inwards *)
Definition sides (c : nat -> v3 f32) : list (v3 f32 * v3 f32 * v3 f32) :=
  [(c 0, c 2, c 1); (c 4, c 5, c 6); (c 3, c 6, c 2); (c 0, c 5, c 4); (c 3, c 4, c 7); (c 2, c 6, c 5)]%nat.
(** how deep [q] lies on the inner side of the plane through three points, exactly *)
Definition depth (f : v3 f32 * v3 f32 * v3 f32) (q : v3 f32) : R :=
  let '(a, b, c) := f in dotR (sub3R q a) (normal_dir a b c) / normR (normal_dir a b c).
(** 2^-16 of the largest coordinate, over the sine of the angle at the first point *)
Definition band (M : R) (f : v3 f32 * v3 f32 * v3 f32) : R :=
  let '(a, b, c) := f in bpow radix2 (-16) * M * (normR (sub3R b a) * normR (sub3R c a)) / normR (normal_dir a b c).
Definition within (M : R) (p : v3 f32) : Prop := all3 (fun c => ffin c = true /\ Rabs (FR c) <= M) p.
