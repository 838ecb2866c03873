(** Vocabulary for C109: a mesh layer is a map from blocks to meshes. *)
From Coq Require Import ZArith List Bool Reals.
From Flocq Require Import Core.
From Verif Require Import F32 F32_lemmas Types Layer Assoc Marching MeshInt MeshStore.
Import ListNotations.
Open Scope Z_scope.

(** the coordinate lies in the block, further from its faces than rounding *)
Definition inside_block (bs x : f32) (i : Z) : Prop :=
  let t := (FR x / FR bs)%R in
  ffin x = true /\ Z.abs i <= 2 ^ 20 /\
  (IZR i + (/ 1048576 * Rabs t + / 131072) < t < IZR i + 1 - (/ 1048576 * Rabs t + / 131072))%R.
Inductive place_of (bs : f32) : place -> idx3 -> Prop :=
| at_index i : place_of bs (AtIndex i) i
| at_point p i : inside_block bs (vx p) (vx i) -> inside_block bs (vy p) (vy i) -> inside_block bs (vz p) (vz i) ->
    place_of bs (AtPoint p) i.

(** the map *)
Definition mmap := idx3 -> option mesh.
Definition put (i : idx3) (v : option mesh) (m : mmap) : mmap := fun j => if idx_eqb i j then v else m j.
(** a mesh without triangles at the corner of the block *)
Definition fresh (bs : f32) (i : idx3) : mesh := MkMesh [] [] [] [] (map3 (fun c => fmul (f32_of_Z c) bs) i) false.
(** further from [c] than [d]: squared lengths in the program's arithmetic *)
Definition further (c : pt3) (d : f64) (m : mesh) : bool :=
  dgt (f64_of_f32 (sqnorm (pt_sub (m_origin m) c))) (dmul d d).
(** one operation on the map [m], with the map afterwards and what is seen *)
Inductive does (bs : f32) (m : mmap) : mop -> mmap -> mobs -> Prop :=
| d_allocate x i : place_of bs x i ->
    let v := match m i with Some v => v | None => fresh bs i end in does bs m (MAllocate x) (put i (Some v) m) (OMesh (Some v))
| d_allocate_new x i : place_of bs x i ->
    let v := match m i with Some v => v | None => fresh bs i end in does bs m (MAllocateNew x) (put i (Some v) m) (OMesh (Some v))
| d_remove x i : place_of bs x i -> does bs m (MRemove x) (put i None m) ONone
| d_get x i : place_of bs x i -> does bs m (MGet x) m (OMesh (m i))
| d_ref i v : m i = Some v -> does bs m (MRef i) m (OMesh (Some v))
| d_edit x i f : place_of bs x i -> does bs m (MEdit x f) (put i (option_map f (m i)) m) ONone
| d_clear : does bs m MClear (fun _ => None) ONone
| d_distant c d : does bs m (MClearDistant c d)
    (fun i => option_map (fun v => if further c d v then MkMesh [] [] [] [] (m_origin v) true else v) (m i)) ONone
| d_all is : NoDup is -> (forall i, In i is <-> m i <> None) -> does bs m MAll m (OList is)
| d_updated is : NoDup is -> (forall i, In i is <-> exists v, m i = Some v /\ m_updated v = true) -> does bs m MUpdated m (OList is)
| d_count is : NoDup is -> (forall i, In i is <-> m i <> None) -> does bs m MCount m (OCount (Z.of_nat (length is))).
Inductive does_all (bs : f32) : mmap -> list mop -> mmap -> list mobs -> Prop :=
| da_nil m : does_all bs m [] m []
| da_cons m o m1 v os m2 vs : does bs m o m1 v -> does_all bs m1 os m2 vs -> does_all bs m (o :: os) m2 (v :: vs).
(** the places of a program are proper places *)
Definition proper (bs : f32) (o : mop) : Prop :=
  match o with
  | MAllocate x | MAllocateNew x | MRemove x | MGet x | MEdit x _ => exists i, place_of bs x i
  | _ => True
  end.
