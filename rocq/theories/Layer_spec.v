(** What a user expects of layers: each layer is a partial function from block
    index to block, and a program works on several independent ones. This is the
    specification for C14 and C16; it shares only the operation names and the
    block record with the model. *)
From Coq Require Import ZArith List Bool.
From Verif Require Import F32 Types Index Voxel Layer Heap.
Import ListNotations.

Section Spec.
  Context {k : vkind}.
  Record slayer : Type := SL { s_size : f32; s_vps : Z; s_map : idx3 -> option (Block k) }.
  Definition sworld := list slayer.

  (** the layers other than [n] are equal; layer [n] keeps its geometry and its
      map becomes [m] *)
  Definition updates (sw : sworld) (n : nat) (m : idx3 -> option (Block k)) (sw' : sworld) : Prop :=
    length sw' = length sw /\
    (forall n', n' <> n -> nth_error sw' n' = nth_error sw n') /\
    exists l l', nth_error sw n = Some l /\ nth_error sw' n = Some l' /\
      s_size l' = s_size l /\ s_vps l' = s_vps l /\ forall j, s_map l' j = m j.
  Definition fresh (l : slayer) (i : idx3) : Block k :=
    MkBlock (s_vps l) (s_size l) (new_block_origin (s_vps l) (s_size l) i) false upd_none
      (repeat (vdefault k) (num_voxels (s_vps l))).

  (** [b'] in layer [l'] is a copy of [b]: same voxels, geometry of the layer,
      flags cleared (see C16) *)
  Definition copy_of (l : slayer) (i : idx3) (b b' : Block k) : Prop :=
    b_voxels b' = b_voxels b /\ b_size b' = s_size l /\ b_vps b' = s_vps l /\
    b_origin b' = new_block_origin (s_vps l) (s_size l) i /\
    b_has_data b' = false /\ b_updated b' = upd_none.

  Inductive sstep (sw : sworld) : op k -> sworld -> out k -> Prop :=
  | SNew : forall s vps, flt f0 s = true -> flt f0 (block_size_of vps s) = true -> (0 < vps)%Z ->
      sstep sw (ONew s vps) (sw ++ [SL s vps (fun _ => None)]) OutUnit
  | SCopy : forall n l l', nth_error sw n = Some l ->
      (forall i b, s_map l i = Some b -> length (b_voxels b) = num_voxels (s_vps l)) ->
      s_size l' = s_size l -> s_vps l' = s_vps l ->
      (forall i, match s_map l i, s_map l' i with
                 | Some b, Some b' => copy_of l i b b'
                 | None, None => True
                 | _, _ => False
                 end) ->
      sstep sw (OCopy n) (sw ++ [l']) OutUnit
  | SAllocOld : forall n i l b, nth_error sw n = Some l -> s_map l i = Some b ->
      sstep sw (OAlloc n i) sw (OutBlock (Some b))
  | SAllocNew : forall n i l sw', nth_error sw n = Some l -> s_map l i = None ->
      updates sw n (fun j => if idx_eqb j i then Some (fresh l i) else s_map l j) sw' ->
      sstep sw (OAlloc n i) sw' (OutBlock (Some (fresh l i)))
  | SInsertOld : forall n i l b b0, nth_error sw n = Some l -> s_map l i = Some b0 ->
      sstep sw (OInsert n i b) sw OutUnit
  | SInsertNew : forall n i l b sw', nth_error sw n = Some l -> s_map l i = None ->
      updates sw n (fun j => if idx_eqb j i then Some b else s_map l j) sw' ->
      sstep sw (OInsert n i b) sw' OutUnit
  | SRemove : forall n i l sw', nth_error sw n = Some l ->
      updates sw n (fun j => if idx_eqb j i then None else s_map l j) sw' ->
      sstep sw (ORemove n i) sw' OutUnit
  | SRemoveAll : forall n sw', updates sw n (fun _ => None) sw' ->
      sstep sw (ORemoveAll n) sw' OutUnit
  | SRemoveDistant : forall n l c d sw', nth_error sw n = Some l ->
      updates sw n (fun j => match s_map l j with
                             | Some b => if is_distant c d b then None else Some b
                             | None => None
                             end) sw' ->
      sstep sw (ORemoveDistant n c d) sw' OutUnit
  | SFind : forall n i l, nth_error sw n = Some l ->
      sstep sw (OFind n i) sw (OutBlock (s_map l i))
  | SGet : forall n i l b, nth_error sw n = Some l -> s_map l i = Some b ->
      sstep sw (OGet n i) sw (OutBlock (Some b))
  | SHas : forall n i l, nth_error sw n = Some l ->
      sstep sw (OHas n i) sw (OutBool (match s_map l i with Some _ => true | None => false end))
  | SMutNone : forall n i f l, nth_error sw n = Some l -> s_map l i = None ->
      sstep sw (OMut n i f) sw OutUnit
  | SMut : forall n i f l b sw', nth_error sw n = Some l -> s_map l i = Some b ->
      updates sw n (fun j => if idx_eqb j i then Some (f b) else s_map l j) sw' ->
      sstep sw (OMut n i f) sw' OutUnit.

  Inductive srun : sworld -> list (op k) -> sworld -> list (out k) -> Prop :=
  | SNil : forall sw, srun sw [] sw []
  | SCons : forall sw o sw1 x os sw2 xs, sstep sw o sw1 x -> srun sw1 os sw2 xs ->
      srun sw (o :: os) sw2 (x :: xs).

  (** the concrete state holds exactly the abstract maps *)
  Definition holds (w : world k) (sw : sworld) : Prop :=
    length (w_layers w) = length sw /\
    forall n l sl, nth_error (w_layers w) n = Some l -> nth_error sw n = Some sl ->
      hl_size l = s_size sl /\ hl_vps l = s_vps sl /\
      NoDup (map fst (hl_map l)) /\
      forall i, match h_find l i with
                | Some p => exists b, nth_error (w_heap w) p = Some b /\ s_map sl i = Some b
                | None => s_map sl i = None
                end.
End Spec.
Arguments sworld k : clear implicits.
Arguments slayer k : clear implicits.
