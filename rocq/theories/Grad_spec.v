(** Vocabulary for distance and gradient queries. *)
From Coq Require Import ZArith List Bool Reals.
From Flocq Require Import Core.
From Verif Require Import F32 F32_lemmas Index_float Types Index Voxel Layer Ray Mesh_spec Interp Interp_spec Grad.
Import ListNotations.
Open Scope R_scope.

(** finite coordinates within [m] voxels of the origin *)
Definition within (m : R) (s : f32) (p : pt3) : Prop := all3 (fun x => ffin x = true /\ Rabs (FR x / FR s) <= m) p.
(** the point one voxel further along axis [i] ([true]: in positive direction), as computed *)
Definition neighbour (s : f32) (p : pt3) (i : nat) (positive : bool) : pt3 :=
  pt_add p (axis_offset i (fmul (f32_of_Z (if positive then 1 else -1)) s)).
(** [x] is [r], up to rounding *)
Definition nearly (x : f32) (r : R) : Prop :=
  ffin x = true /\ Rabs (FR x - r) <= bpow radix2 (-22) * Rabs r + bpow radix2 (-149).

(** ** planes *)
Definition plane (A : R) (n x : v3 R) : R := A + vx n * vx x + vy n * vy x + vz n * vz x.
Definition slope (n : v3 R) : R := Rabs (vx n) + Rabs (vy n) + Rabs (vz n).
(** the centre of voxel [g] *)
Definition centre (s : R) (g : idx3) : v3 R := map3 (fun c => (IZR c + / 2) * s) g.
(** every observed voxel has the value of the plane at its centre, up to [eps] *)
Definition planar {k} (l : Layer k) (A : R) (n : v3 R) (eps : R) : Prop :=
  forall g v, observed_at l g = Some v ->
    Rabs (FR (getVoxelSdf k v) - plane A n (centre (FR (l_size l)) g)) <= eps.
(** all values are finite and at most [D] *)
Definition bounded {k} (l : Layer k) (D : R) : Prop :=
  forall g v, voxel_at l g = Some v -> ffin (getVoxelSdf k v) = true /\ Rabs (FR (getVoxelSdf k v)) <= D.
(** how far a query within [m] voxels of the origin may be off: the voxels themselves, the position, and rounding *)
Definition plane_err (vps : Z) (s m D eps : R) (n : v3 R) : R :=
  2 * eps + slope n * s * off_tol vps m + / 2 ^ 14 * D + bpow radix2 (-140).
Definition comp {A} (i : nat) (v : v3 A) : A := get3 i v.
(** complete orders of summation *)
Definition orders (rows : nat -> sum_order) (top : sum_order) : Prop :=
  (forall j, (j < 8)%nat -> complete_order (rows j)) /\ complete_order top.

(** ** queries that make do with what is known *)
(** the point one voxel away along axis [i] *)
Definition beside (s : f32) (p : pt3) (i : nat) (positive : bool) : pt3 :=
  if positive then pt_add p (axis_offset i s) else pt_sub p (axis_offset i s).
(** the slope between what is known before and behind *)
Definition slope_at (s : R) (near : f32) (lo hi : option f32) : option R :=
  match lo, hi with
  | Some a, Some b => Some ((FR b - FR a) / (2 * s))
  | Some a, None => Some ((FR near - FR a) / s)
  | None, Some b => Some ((FR b - FR near) / s)
  | None, None => None
  end.
Definition both_known (d : nat -> bool -> option f32) : bool :=
  forallb (fun i => match d i false, d i true with Some _, Some _ => true | _, _ => false end) [0; 1; 2]%nat.
Definition one_known (d : nat -> bool -> option f32) : bool :=
  forallb (fun i => match d i false, d i true with None, None => false | _, _ => true end) [0; 1; 2]%nat.
(** the value at [p] of the plane with value [a] at the centre of voxel [c] and slope [g] *)
Definition from_centre (s : R) (a : R) (c : idx3) (g : v3 R) (p : v3 R) : R :=
  a + vx g * (vx p - (IZR (vx c) + / 2) * s) + vy g * (vy p - (IZR (vy c) + / 2) * s) + vz g * (vz p - (IZR (vz c) + / 2) * s).
