(** Vocabulary for C75_mean: weighted means of points, over the reals. *)
From Coq Require Import ZArith Reals List Bool.
From Flocq Require Import Core Binary.
From Verif Require Import F32 F32_lemmas Types Voxel Update Cloud Cloud_spec.
Import ListNotations.
Open Scope R_scope.

(** the weight of point [i] (C71) *)
Definition weight_of (cc : CloudConfig) (cl : cloud) (i : Z) : f32 := getVoxelWeight (cc_tsdf cc) (point_of cl i).
(** points of a weight below 1e-6 do not count *)
Definition counts (cc : CloudConfig) (cl : cloud) (i : Z) : bool := negb (flt (weight_of cc cl i) kEpsilon).
Fixpoint Rsum (f : Z -> R) (is : list Z) : R := match is with [] => 0 | i :: is' => f i + Rsum f is' end.
(** the coordinates of point [i] are at most [B] in size *)
Definition within (B : R) (cl : cloud) (i : Z) : Prop :=
  all3 (fun c => ffin c = true /\ Rabs (FR c) <= B) (point_of cl i).
(** [p] is the mean of [n] points with the weights [w], up to rounding: [B] bounds the coordinates *)
Definition mean_of (n : nat) (B : R) (w : Z -> R) (pts : Z -> pt3) (is : list Z) (p : pt3) : Prop :=
  forall c : pt3 -> f32, c = vx \/ c = vy \/ c = vz ->
    Rabs (FR (c p) * Rsum w is - Rsum (fun i => w i * FR (c (pts i))) is) <= INR n * bpow radix2 (-21) * B * Rsum w is.
(** every channel of [c] lies between those of the points [is] *)
Definition between_colors (cl : cloud) (is : list Z) (c : Color) : Prop :=
  forall ch : Color -> Z, ch = cr \/ ch = cg \/ ch = cb \/ ch = ca ->
    (exists i, In i is /\ (ch (color_of cl i) <= ch c)%Z) /\ (exists i, In i is /\ (ch c <= ch (color_of cl i))%Z).
