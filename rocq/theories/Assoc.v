(** Finite maps keyed by block index, in iteration order. Definitions only.

    Models [std::unordered_map<BlockIndex, T>] ([AnyIndexHashMapType],
    /repo/voxblox/include/voxblox/core/block_hash.h:31-55). The list order is the
    (unspecified) iteration order; new keys go to the end. Properties never
    depend on the order. *)
From Coq Require Import ZArith List Bool.
From Verif Require Import F32 Types.
Import ListNotations.

Section Assoc.
  Context {B : Type}.
  Definition amap := list (idx3 * B).
  (** [find] *)
  Fixpoint alookup (i : idx3) (m : amap) : option B :=
    match m with
    | [] => None
    | (j, b) :: m' => if idx_eqb i j then Some b else alookup i m'
    end.
  (** [operator[] =] : insert or overwrite *)
  Fixpoint aset (i : idx3) (b : B) (m : amap) : amap :=
    match m with
    | [] => [(i, b)]
    | (j, c) :: m' => if idx_eqb i j then (j, b) :: m' else (j, c) :: aset i b m'
    end.
  (** [insert] / [emplace]: keeps an existing entry *)
  Definition ainsert (i : idx3) (b : B) (m : amap) : amap :=
    match alookup i m with Some _ => m | None => m ++ [(i, b)] end.
  (** [erase] *)
  Definition aerase (i : idx3) (m : amap) : amap :=
    filter (fun kv => negb (idx_eqb i (fst kv))) m.
  Definition akeys (m : amap) : list idx3 := map fst m.
End Assoc.
Arguments amap B : clear implicits.
