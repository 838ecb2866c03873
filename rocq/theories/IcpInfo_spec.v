(** Statements about six numbers at once. *)
From Coq Require Import ZArith List Bool Reals.
From Flocq Require Import Core.
From Verif Require Import F32 F32_lemmas Types.
Import ListNotations.
Open Scope R_scope.

Definition each (P : f32 -> Prop) (v : v3 f32 * v3 f32) : Prop := all3 P (fst v) /\ all3 P (snd v).
Definition entries (v : v3 f32 * v3 f32) : list f32 := [vx (fst v); vy (fst v); vz (fst v); vx (snd v); vy (snd v); vz (snd v)].
(** a finite number in a range *)
Definition between (lo hi : R) (x : f32) : Prop := ffin x = true /\ lo <= FR x <= hi.
(** entry by entry *)
Definition rel (P : f32 -> f32 -> Prop) (a b : v3 f32 * v3 f32) : Prop := Forall2 P (entries a) (entries b).
Definition no_less (a b : f32) : Prop := FR a <= FR b.
(** a matched point at most 1000 km away with a gradient of about unit length *)
Definition usable_match (m : v3 f32 * v3 f32) : Prop :=
  all3 (fun c => ffin c = true /\ Rabs (FR c) <= bpow radix2 20) (fst m) /\ all3 (fun c => ffin c = true /\ Rabs (FR c) <= 2) (snd m).
(** what a point p with unit normal n tells: twice the squared normal for the translation,
    twice the squared lever arms about each axis for the rotation *)
Definition content (p n : v3 f32) : list R :=
  let s x := FR x * FR x in
  [2 * s (vx n); 2 * s (vy n); 2 * s (vz n);
   2 * (s (vy p) * s (vz n) + s (vz p) * s (vy n)); 2 * (s (vx p) * s (vz n) + s (vz p) * s (vx n)); 2 * (s (vx p) * s (vy n) + s (vy p) * s (vx n))].
(** equal up to four millionths and what is lost by underflow *)
Definition about (x : f32) (X : R) : Prop := Rabs (FR x - X) <= / 250000 * X + bpow radix2 (-140).
(** a weight w for a step that brings e when b was known: all if nothing was known, at most
    half if it brings no more than was known, at least half if no less *)
Definition fair (b e w : v3 f32 * v3 f32) : Prop :=
  Forall (fun '(b, e, w) => (FR b = 0 -> FR w = 1) /\ (FR e <= FR b -> FR w <= / 2) /\ (FR b <= FR e -> / 2 <= FR w))
    (combine (combine (entries b) (entries e)) (entries w)).
