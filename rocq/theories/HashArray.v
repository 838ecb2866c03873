(** /repo/voxblox/include/voxblox/utils/approx_hash_array.h:28-61 [ApproxHashArray].
    Definitions only. *)
From Coq Require Import ZArith List Bool.
From Verif Require Import F32 Types Index Layer Threads Queue.
Import ListNotations.
Open Scope Z_scope.

Section H.
  Context {A : Type}.
  (** 56-59: [pseudo_map_] has [1 << unmasked_bits] elements, [bit_mask_] is one less *)
  Record hasharray : Type := MkHA { ha_bits : Z; ha_map : list A }.
  (** an element is addressed by a hash or by an index *)
  Inductive key := ByHash (h : Z) | ByIndex (i : idx3).
  (** 38-52: [get(hash)] and [get(index)]; the hasher is [AnyIndexHash] or [LongIndexHash] *)
  Definition ha_hash (k : key) : Z := match k with ByHash h => h | ByIndex i => index_hash i end.
  Definition ha_slot (a : hasharray) (k : key) : nat := Z.to_nat (Z.land (ha_hash k) (2 ^ ha_bits a - 1)).
  (** reading through the reference, and assigning through it *)
  Definition ha_read (a : hasharray) (k : key) : res A := of_opt (nth_error (ha_map a) (ha_slot a k)).
  Definition ha_write (a : hasharray) (k : key) (v : A) : res hasharray :=
    match nth_error (ha_map a) (ha_slot a k) with
    | Some _ => Ok (MkHA (ha_bits a) (set_th (ha_slot a k) v (ha_map a)))
    | None => UB
    end.
  (** the array after assignments, the most recent first *)
  Fixpoint ha_after (a : hasharray) (past : list (key * A)) : res hasharray :=
    match past with
    | [] => Ok a
    | (k, v) :: past' => rbind (ha_after a past') (fun a' => ha_write a' k v)
    end.
End H.
Arguments hasharray : clear implicits.
