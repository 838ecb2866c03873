(** Vocabulary for C104: a layer used by coordinates is a map from voxels to values. *)
From Coq Require Import ZArith List Bool Reals.
From Flocq Require Import Core.
From Verif Require Import F32 F32_lemmas Types Voxel Interp_spec Coords.
Import ListNotations.
Open Scope Z_scope.

(** the coordinate lies in the cell of the voxel, further from its borders than rounding *)
Definition well_inside (n : Z) (s x : f32) (g : Z) : Prop :=
  let t := (FR x / FR s)%R in
  ffin x = true /\ (Rabs t <= 65536)%R /\ (IZR g + border_tol n t < t < IZR g + 1 - border_tol n t)%R.
(** the point [p] belongs to the voxel [g] *)
Definition point_of (n : Z) (s : f32) (p : pt3) (g : idx3) : Prop :=
  well_inside n s (vx p) (vx g) /\ well_inside n s (vy p) (vy g) /\ well_inside n s (vz p) (vz g).
(** two voxels in the same block of [n] voxels per side *)
Definition same_block (n : Z) (g h : idx3) : bool :=
  (vx g / n =? vx h / n) && (vy g / n =? vy h / n) && (vz g / n =? vz h / n).

(** the same program in terms of voxels *)
Inductive vop (k : vkind) := VAllocate (g : idx3) | VRemove (g : idx3) | VWrite (g : idx3) (v : vox k) | VRead (g : idx3).
Arguments VAllocate {k}. Arguments VRemove {k}. Arguments VWrite {k}. Arguments VRead {k}.
(** what a map does *)
Definition vop_step {k} (n : Z) (m : idx3 -> option (vox k)) (o : vop k) : idx3 -> option (vox k) :=
  match o with
  | VAllocate g => fun h => match m h with Some v => Some v | None => if same_block n g h then Some (vdefault k) else None end
  | VRemove g => fun h => if same_block n g h then None else m h
  | VWrite g v => fun h => if idx_eqb g h then match m h with Some _ => Some v | None => None end else m h
  | VRead _ => m
  end.
Definition vop_sees {k} (m : idx3 -> option (vox k)) (o : vop k) : option (vox k) :=
  match o with VWrite g _ | VRead g => m g | _ => None end.
Fixpoint vop_run {k} (n : Z) (m : idx3 -> option (vox k)) (os : list (vop k)) : (idx3 -> option (vox k)) * list (option (vox k)) :=
  match os with
  | [] => (m, [])
  | o :: os => let r := vop_run n (vop_step n m o) os in (fst r, vop_sees m o :: snd r)
  end.
(** an operation at a point is the operation on the voxel of the point *)
Inductive means {k} (n : Z) (s : f32) : cop k -> vop k -> Prop :=
| m_alloc p g : point_of n s p g -> means n s (CAllocate p) (VAllocate g)
| m_new p g : point_of n s p g -> means n s (CAllocateNew p) (VAllocate g)
| m_remove p g : point_of n s p g -> means n s (CRemove p) (VRemove g)
| m_write p g v : point_of n s p g -> means n s (CWrite p v) (VWrite g v)
| m_read p g : point_of n s p g -> means n s (CRead p) (VRead g)
| m_index g e : n = 2 ^ e -> 0 <= e -> all3 (fun c => Z.abs c <= 2 ^ 24) g -> means n s (CReadIndex g) (VRead g).
