(** Shared datatypes. Definitions only. *)
From Coq Require Import ZArith List Bool.
From Verif Require Import F32.
Import ListNotations.
Open Scope Z_scope.

(** Outcome of a C++ call: a value, an abort ([CHECK]/[LOG(FATAL)]) or
    undefined behaviour (out-of-range cast, uninitialised read, out-of-bounds
    access, null dereference). *)
Inductive res (A : Type) : Type :=
| Ok (a : A)
| Abort
| UB.
Arguments Ok {A} a.
Arguments Abort {A}.
Arguments UB {A}.

Definition rbind {A B} (r : res A) (f : A -> res B) : res B :=
  match r with Ok a => f a | Abort => Abort | UB => UB end.
Definition of_opt {A} (o : option A) : res A :=
  match o with Some a => Ok a | None => UB end.

(** 3-vectors: [BlockIndex], [VoxelIndex], [GlobalIndex] (integers) and
    [Point] (floats), /repo/voxblox/include/voxblox/core/common.h:22-60. *)
Record v3 (A : Type) : Type := V3 { vx : A; vy : A; vz : A }.
Arguments V3 {A} vx vy vz.
Arguments vx {A} v.
Arguments vy {A} v.
Arguments vz {A} v.

Definition idx3 := v3 Z.
Definition pt3 := v3 f32.

Definition map3 {A B} (f : A -> B) (v : v3 A) : v3 B :=
  V3 (f (vx v)) (f (vy v)) (f (vz v)).
Definition zip3 {A B C} (f : A -> B -> C) (u : v3 A) (v : v3 B) : v3 C :=
  V3 (f (vx u) (vx v)) (f (vy u) (vy v)) (f (vz u) (vz v)).
(** three casts, undefined as soon as one of them is *)
Definition seq3 {A} (v : v3 (option A)) : option (v3 A) :=
  match vx v, vy v, vz v with
  | Some x, Some y, Some z => Some (V3 x y z)
  | _, _, _ => None
  end.
Definition all3 {A} (P : A -> Prop) (v : v3 A) : Prop :=
  P (vx v) /\ P (vy v) /\ P (vz v).

Definition idx_eqb (a b : idx3) : bool :=
  (vx a =? vx b) && (vy a =? vy b) && (vz a =? vz b).
Definition idx_add (a b : idx3) : idx3 := zip3 Z.add a b.
Definition idx_sub (a b : idx3) : idx3 := zip3 Z.sub a b.
Definition pt_add (a b : pt3) : pt3 := zip3 fadd a b.
Definition pt_sub (a b : pt3) : pt3 := zip3 fsub a b.

(** fixed width integers *)
Definition wrap32 (z : Z) : Z := (z + 2 ^ 31) mod 2 ^ 32 - 2 ^ 31.
Definition u64 (z : Z) : Z := z mod 2 ^ 64.
Definition u32 (z : Z) : Z := z mod 2 ^ 32.
Definition is_int32 (z : Z) : Prop := - 2 ^ 31 <= z < 2 ^ 31.
