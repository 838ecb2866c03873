(** Vocabulary for the statements about layer evaluation. *)
From Coq Require Import ZArith List Bool Reals.
From Verif Require Import F32 Types Index Voxel Assoc Layer Interp Eval LayerUtils_spec.
Import ListNotations.
Open Scope Z_scope.

(** the voxels the two layers have in common: same block, same place in the block *)
Definition pairs {k} (gt test : Layer k) : list (vox k * vox k) :=
  flat_map (fun ib => match l_get gt (fst ib) with
                      | Some gb => combine (b_voxels gb) (b_voxels (snd ib))
                      | None => [] end) (l_blocks test).
(** the voxels of [a] in blocks that [b] lacks *)
Definition only_in {k} (a b : Layer k) : list (vox k) :=
  flat_map (fun ib => match l_get b (fst ib) with Some _ => [] | None => b_voxels (snd ib) end) (l_blocks a).
Definition both_observed {k} (p : vox k * vox k) : bool := isObservedVoxel k (fst p) && isObservedVoxel k (snd p).
(** what a mode excludes: voxels behind the surface of one of the layers, or of any *)
Definition excluded {k} (m : emode) (p : vox k * vox k) : bool :=
  match m with
  | EAll => false
  | EBehindTest => flt (getVoxelSdf k (snd p)) f0
  | EBehindGt => flt (getVoxelSdf k (fst p)) f0
  | EBehindBoth => flt (getVoxelSdf k (snd p)) f0 || flt (getVoxelSdf k (fst p)) f0
  end.
Definition evaluated {k} (m : emode) (p : vox k * vox k) : bool := both_observed p && negb (excluded m p).
(** the error of a pair: test minus ground truth *)
Definition error_of {k} (p : vox k * vox k) : f32 := fsub (getVoxelSdf k (snd p)) (getVoxelSdf k (fst p)).
Definition errors {k} (m : emode) (gt test : Layer k) : list f32 := map error_of (filter (evaluated m) (pairs gt test)).
Definition count {A} (f : A -> bool) (xs : list A) : Z := Z.of_nat (length (filter f xs)).
(** the root of the mean of the squares *)
Definition exact_rms (es : list f32) : R :=
  sqrt (fold_right (fun e s => FR e * FR e + s)%R 0%R es / INR (length es)).
(** finite errors of magnitude at most 2^60 *)
Definition errors_ok (es : list f32) : Prop :=
  Forall (fun e => ffin e = true /\ (Rabs (FR e) <= 2 ^ 60)%R) es.
