(** Vocabulary for the ray casting properties. *)
From Coq Require Import ZArith Reals List.
From Flocq Require Import Core.
From Verif Require Import F32 F32_lemmas Types.
Import ListNotations.
Open Scope Z_scope.

(** voxels [a] and [b] are equal or one step of direction [dir] apart along one axis *)
Definition step_of (dir a b : idx3) : Prop :=
  b = a \/ b = V3 (vx a + vx dir) (vy a) (vz a) \/ b = V3 (vx a) (vy a + vy dir) (vz a) \/
  b = V3 (vx a) (vy a) (vz a + vz dir).
(** consecutive elements are related *)
Fixpoint chain {A} (R : A -> A -> Prop) (l : list A) : Prop :=
  match l with
  | a :: ((b :: _) as l') => R a b /\ chain R l'
  | _ => True
  end.
(** sign of the movement from [s] to [e] on each axis *)
Definition sgnR (r : R) : Z := if Rlt_dec r 0 then -1 else if Rlt_dec 0 r then 1 else 0.
Definition direction (s e : pt3) : idx3 := zip3 (fun a b => sgnR (FR b - FR a)) s e.
(** number of grid steps between two voxels *)
Definition manhattan (a b : idx3) : Z :=
  Z.abs (vx b - vx a) + Z.abs (vy b - vy a) + Z.abs (vz b - vz a).

(** coordinate [p] is inside cell [v] of the unit grid, up to [m] outside of it *)
Definition in_cell (m p : R) (v : Z) : Prop := (IZR v - m <= p <= IZR v + 1 + m)%R.
(** some point of the segment from [s] to [e] is within [m] of the cube of voxel [v] *)
Definition segment_meets (m : R) (s e : pt3) (v : idx3) : Prop :=
  exists t : R, (0 <= t <= 1)%R /\
    in_cell m (FR (vx s) + t * (FR (vx e) - FR (vx s))) (vx v) /\
    in_cell m (FR (vy s) + t * (FR (vy e) - FR (vy s))) (vy v) /\
    in_cell m (FR (vz s) + t * (FR (vz e) - FR (vz s))) (vz v).
(** point [p] is at least [m] inside the cube of voxel [v] *)
Definition well_inside (m : R) (p : pt3) (v : idx3) : Prop :=
  (IZR (vx v) + m <= FR (vx p) <= IZR (vx v) + 1 - m)%R /\
  (IZR (vy v) + m <= FR (vy p) <= IZR (vy v) + 1 - m)%R /\
  (IZR (vz v) + m <= FR (vz p) <= IZR (vz v) + 1 - m)%R.
(** finite, no coordinate beyond 2^20 voxels *)
Definition scaled_ok (p : pt3) : Prop :=
  all3 (fun c => ffin c = true /\ (Rabs (FR c) <= 1048576)%R) p.
(** no component of the ray vanishes *)
Definition oblique (s e : pt3) : Prop :=
  let d a b := (bpow radix2 (-60) <= Rabs (FR b - FR a))%R in
  d (vx s) (vx e) /\ d (vy s) (vy e) /\ d (vz s) (vz e).
(** rounding allowance of a ray that crosses [n] grid planes *)
Definition slack (n : Z) : R := ((IZR n + 4) * (IZR n + 4) / 16777216 + 3 / 1000000)%R.
