(** Vocabulary for viewpoints in a simulated world. *)
From Coq Require Import ZArith Reals.
From Flocq Require Import Core.
From Verif Require Import F32 F32_lemmas Types Index.
Open Scope R_scope.

(** a coordinate of a world: 0, or between 2^-100 and 2^38 in size *)
Definition usual_bound (x : f32) : Prop :=
  ffin x = true /\ (FR x = 0 \/ bpow radix2 (-100) <= Rabs (FR x)) /\ Rabs (FR x) <= bpow radix2 38.
(** the world from corner [lo] to corner [hi] contains the origin *)
Definition around_origin (lo hi : pt3) : Prop :=
  all3 usual_bound lo /\ all3 usual_bound hi /\ all3 (fun a => FR a <= 0) lo /\ all3 (fun a => 0 <= FR a) hi.
(** what Eigen's [setRandom] can give *)
Definition a_draw (r : pt3) : Prop := all3 (fun c => ffin c = true /\ -1 <= FR c <= 1) r.
(** [p] is in the box between [lo] and [hi] *)
Definition within_box (lo hi p : pt3) : Prop :=
  (ffin (vx p) = true /\ FR (vx lo) <= FR (vx p) <= FR (vx hi)) /\
  (ffin (vy p) = true /\ FR (vy lo) <= FR (vy p) <= FR (vy hi)) /\
  (ffin (vz p) = true /\ FR (vz lo) <= FR (vz p) <= FR (vz hi)).
(** the length of a vector *)
Definition lengthR (v : pt3) : R := sqrt (FR (vx v) * FR (vx v) + FR (vy v) * FR (vy v) + FR (vz v) * FR (vz v)).
(** [d] points the way [r] does and has length one, up to [e] on each axis *)
Definition heads (e : R) (r d : pt3) : Prop :=
  Rabs (FR (vx d) - FR (vx r) / lengthR r) <= e /\ Rabs (FR (vy d) - FR (vy r) / lengthR r) <= e /\
  Rabs (FR (vz d) - FR (vz r) / lengthR r) <= e.
