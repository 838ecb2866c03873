(** What the colour maps are documented to be. *)
From Coq Require Import ZArith Reals Lra Bool.
From Flocq Require Import Core.
From Verif Require Import F32 Voxel.
Open Scope R_scope.

(** [x] cut off to 0..1 *)
Definition ramp (x : R) : R := Rmax 0 (Rmin 1 x).
(** the channels of the fully saturated colour of hue [x] sixths of the circle *)
Definition red (x : R) : R := ramp (Rabs (x - 3) - 1).
Definition green (x : R) : R := ramp (2 - Rabs (x - 2)).
Definition blue (x : R) : R := ramp (2 - Rabs (x - 4)).
(** the fraction of a number *)
Definition frac (h : R) : R := h - IZR (Zfloor h).
(** a channel byte is [255 x] up to [e] *)
Definition about (e : R) (c : Z) (x : R) : Prop := Rabs (IZR c - 255 * x) <= e.
(** [c] is opaque and its channels are [r], [g], [b] up to [e] *)
Definition shows (e : R) (c : Color) (r g b : R) : Prop :=
  ca c = 255%Z /\ about e (cr c) r /\ about e (cg c) g /\ about e (cb c) b.
(** where a value lies between the ends of a range: values outside belong to the near
    end, a value that is no number to the lower end *)
Definition share (min_value max_value value : f32) : R :=
  if fnan value || fle value min_value then 0
  else if fle max_value value then 1
  else (FR value - FR min_value) / (FR max_value - FR min_value).
(** a usable range *)
Definition span (min_value max_value : f32) : Prop :=
  ffin min_value = true /\ ffin max_value = true /\ FR min_value < FR max_value /\ FR max_value - FR min_value <= bpow radix2 127.
(** straight lines through five values at 0, 1/4, 1/2, 3/4, 1 *)
Definition through (c0 c1 c2 c3 c4 : R) (t : R) : R :=
  c0 + (c1 - c0) * ramp (4 * t) + (c2 - c1) * ramp (4 * t - 1) + (c3 - c2) * ramp (4 * t - 2) + (c4 - c3) * ramp (4 * t - 3).
(** one channel is full and one empty *)
Definition saturated (c : Color) : Prop :=
  (Z.max (cr c) (Z.max (cg c) (cb c)) = 255 /\ Z.min (cr c) (Z.min (cg c) (cb c)) = 0)%Z.
