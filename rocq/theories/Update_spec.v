(** Vocabulary for the properties of voxel updates. *)
From Coq Require Import ZArith List Bool Reals.
From Flocq Require Import Core.
From Verif Require Import F32 F32_lemmas Types Voxel Update.
Import ListNotations.
Open Scope R_scope.

(** an execution order of calls: which thread made which call *)
Definition order := list (nat * request).
(** the calls of one thread, in that order *)
Definition calls_of (t : nat) (o : order) : list request := map snd (filter (fun e => Nat.eqb (fst e) t) o).
(** the calls for one voxel, in that order *)
Definition calls_for (i : idx3) (o : order) : list request :=
  map snd (filter (fun e => idx_eqb (q_idx (snd e)) i) o).
(** every call of every thread occurs exactly once, each thread's calls in program order *)
Definition interleaves (progs : list (list request)) (o : order) : Prop :=
  (forall e, In e o -> (fst e < length progs)%nat) /\
  forall t prog, nth_error progs t = Some prog -> calls_of t o = prog.
(** the final voxels are what the calls compute when they run one at a time in that order *)
Definition serial_result (cfg : TsdfConfig) (vs : f32) (before after : idx3 -> TsdfVoxel) (o : order) : Prop :=
  forall i, updates cfg vs (calls_for i o) (before i) = Ok (after i).

(** ** single voxels *)
(** truncation distance and maximum weight are finite and not negative *)
Definition cfg_ok (cfg : TsdfConfig) : Prop :=
  ffin (c_trunc cfg) = true /\ 0 <= FR (c_trunc cfg) /\
  ffin (c_max_weight cfg) = true /\ 0 <= FR (c_max_weight cfg).
(** distance within the truncation band, weight between 0 and the maximum *)
Definition voxel_in (cfg : TsdfConfig) (v : TsdfVoxel) : Prop :=
  ffin (t_distance v) = true /\ - FR (c_trunc cfg) <= FR (t_distance v) <= FR (c_trunc cfg) /\
  ffin (t_weight v) = true /\ 0 <= FR (t_weight v) <= FR (c_max_weight cfg).

(** not negative: NaN, or at least zero *)
Definition nneg (x : f32) : Prop := fnan x = true \/ 0 <= ER x.

(** parameters far away from the overflow threshold *)
Definition cfg_small (cfg : TsdfConfig) : Prop :=
  FR (c_trunc cfg) <= bpow radix2 20 /\ FR (c_max_weight cfg) <= bpow radix2 100 /\
  ffin (c_factor cfg) = true /\ 0 <= FR (c_factor cfg) <= bpow radix2 20.

(** [x] limited to [-T, T] *)
Definition clipR (T x : R) : R := Rmax (- T) (Rmin T x).

(** real vectors between float points *)
Definition sub3R (p o : pt3) : v3 R := V3 (FR (vx p) - FR (vx o)) (FR (vy p) - FR (vy o)) (FR (vz p) - FR (vz o)).
Definition dotR (a b : v3 R) : R := vx a * vx b + vy a * vy b + vz a * vz b.
Definition normR (a : v3 R) : R := sqrt (dotR a a).
(** the exact signed distance of the surface point along the ray, seen from the
    voxel centre: distance to the point minus the projection of the centre *)
Definition projective (o p c : pt3) : R :=
  normR (sub3R p o) - dotR (sub3R c o) (sub3R p o) / normR (sub3R p o).

(** ** occupancy *)
Definition occ_cfg_ok (c : OccConfig) : Prop :=
  fnan (oc_hit c) = false /\ fnan (oc_miss c) = false /\
  ffin (oc_min c) = true /\ ffin (oc_max c) = true /\ FR (oc_min c) <= 0 <= FR (oc_max c).
Definition occ_in (c : OccConfig) (v : OccupancyVoxel) : Prop :=
  ffin (o_log v) = true /\ FR (oc_min c) <= FR (o_log v) <= FR (oc_max c).

