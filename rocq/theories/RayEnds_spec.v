(** Where the ray of a measurement begins and ends. *)
From Coq Require Import ZArith Reals List Bool.
From Flocq Require Import Core.
From Verif Require Import F32 F32_lemmas Types Update_spec Merge_proofs Ray_spec.
Import ListNotations.
Open Scope R_scope.

(** the point at distance [l] from [b] in the direction from the sensor [o] to the point [p] *)
Definition further (o p : pt3) (l : R) (b : pt3) : v3 R :=
  let D := sub3R p o in
  V3 (FR (vx b) + l * (vx D / normR D)) (FR (vy b) + l * (vy D / normR D)) (FR (vz b) + l * (vz D / normR D)).
(** A surface point is updated up to the truncation distance [T] behind it, a clearing ray ends [T]
    before the point or at the maximum length [L], whichever is first. *)
Definition ray_far (clearing : bool) (T L : R) (o p : pt3) : v3 R :=
  if clearing then further o p (Rmin (Rmax (normR (sub3R p o) - T) 0) L) o else further o p T p.
(** With voxel carving the ray starts at the sensor, otherwise [T] before the point (and a clearing
    ray consists of its far end only). *)
Definition ray_near (clearing carving : bool) (T L : R) (o p : pt3) : v3 R :=
  if carving then map3 FR o else if clearing then ray_far true T L o p else further o p (- T) p.

(** point [x], in metres, is in voxel [v] of size 1 / inv, or within [m] voxels of it *)
Definition in_voxel (m inv : R) (x : v3 R) (v : idx3) : Prop :=
  in_cell m (vx x * inv) (vx v) /\ in_cell m (vy x * inv) (vy v) /\ in_cell m (vz x * inv) (vz v).
(** coordinates and lengths up to 2^15 m, voxels between 2^-10 and 2^20 m, sensor and point apart *)
Definition ray_args (o p : pt3) (T L inv : f32) : Prop :=
  all3 (fin_upto 15) o /\ all3 (fin_upto 15) p /\ fin_upto 15 T /\ 0 <= FR T /\ fin_upto 15 L /\ 0 <= FR L /\
  ffin inv = true /\ bpow radix2 (-20) <= FR inv <= bpow radix2 10 /\ bpow radix2 (-20) <= normR (sub3R p o).
(** rounding allowance, in voxels: 2^-18 of the coordinates, and the 1e-6 added before rounding down *)
Definition ray_slack (o p : pt3) (T inv : f32) : R :=
  bpow radix2 (-18) * ((normR (map3 FR o) + normR (map3 FR p) + FR T) * FR inv) + 2 / 1000000.
