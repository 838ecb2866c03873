(** Vocabulary for C97 and C98. *)
From Coq Require Import ZArith Reals List.
From Flocq Require Import Core.
From Verif Require Import F32 F32_lemmas Types Index Voxel Update Ray Sim Sim_spec SimNoise.
Import ListNotations.
Open Scope R_scope.

(** a noisy reading of the reading [clean] of the same pixel: same colour, and on the same one of the rays, at the
    distance of the clean reading plus the noise (rounded), but not behind the origin *)
Definition noisy_reading (rays : list pt3) (org : pt3) (noise : f32) (clean noisy : pt3 * Color) : Prop :=
  snd noisy = snd clean /\
  exists dir t t', In dir rays /\ fst clean = ray_point org dir t /\ fst noisy = ray_point org dir t' /\
    ffin t = true /\ 0 <= FR t /\ ffin t' = true /\ FR t' = Rmax 0 (rnd32 (FR t + FR noise)).
(** two clouds with the same colours and the same points as numbers *)
Definition same_reading (a b : pt3 * Color) : Prop :=
  snd a = snd b /\ FR (vx (fst a)) = FR (vx (fst b)) /\ FR (vy (fst a)) = FR (vy (fst b)) /\ FR (vz (fst a)) = FR (vz (fst b)).
(** the [n] pixels of a row or column of an image with [n] of them, the middle of the image at zero *)
Definition centred (n : Z) : list Z := map (fun k => (Z.of_nat k - n / 2)%Z) (seq 0 (Z.to_nat n)).
(** the rays of an image, column by column: each is the direction (1, u / f, v / f) scaled to length
    one and rotated *)
Definition float_div (u : Z) (f a : f32) : Prop := ffin a = true /\ FR a = rnd32 (IZR u / FR f).
