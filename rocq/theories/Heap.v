(** Layers as the program sees them: maps from block index to a shared pointer
    into a heap of blocks, several layers at a time. Definitions only.

    Blocks are never freed in the model ([shared_ptr] frees a block when nobody
    can reach it any more, which is not observable). Writing through a pointer
    obtained from a layer is [OMut]. Putting one block into two layers
    ([insertBlock] of a pointer taken from another layer) is not modelled; every
    block is made by [make_shared]. *)
From Coq Require Import ZArith List Bool.
From Verif Require Import F32 Types Index Voxel Serialize Assoc Layer.
Import ListNotations.
Open Scope Z_scope.

Section Heap.
  Context {k : vkind}.
  Definition heap := list (Block k).
  Notation ptr := nat (only parsing).
  (** layer.h:283-295 with [block_map_] as a map to pointers *)
  Record hlayer : Type := HL { hl_size : f32; hl_vps : Z; hl_map : amap ptr }.
  Definition hl_with (l : hlayer) (m : amap ptr) : hlayer := HL (hl_size l) (hl_vps l) m.
  Record world : Type := World { w_heap : heap; w_layers : list hlayer }.

  (** replace element [n] *)
  Fixpoint set_nth {A} (n : nat) (x : A) (l : list A) : list A :=
    match l, n with
    | [], _ => []
    | _ :: l', O => x :: l'
    | y :: l', S n' => y :: set_nth n' x l'
    end.

  (** layer.h:74-91 [getBlockPtrByIndex] *)
  Definition h_find (l : hlayer) (i : idx3) : option ptr := alookup i (hl_map l).
  (** layer.h:133-145 [allocateNewBlock]; [make_shared] runs before [emplace] *)
  Definition h_allocateNew (h : heap) (l : hlayer) (i : idx3) : heap * hlayer * ptr :=
    let b := new_block (hl_vps l) (hl_size l) (new_block_origin (hl_vps l) (hl_size l) i) in
    let h' := h ++ [b] in
    let m := ainsert i (length h) (hl_map l) in
    (h', hl_with l m, match alookup i m with Some p => p | None => length h end).
  (** layer.h:95-103 [allocateBlockPtrByIndex] *)
  Definition h_allocate (h : heap) (l : hlayer) (i : idx3) : heap * hlayer * ptr :=
    match h_find l i with
    | Some p => (h, l, p)
    | None => h_allocateNew h l i
    end.

  (** layer_inl.h:71-77: write the voxels one by one; more voxels than the new
      block has is out of bounds *)
  Definition copy_voxels (src dst : list (vox k)) : res (list (vox k)) :=
    if Nat.leb (length src) (length dst) then Ok (src ++ skipn (length src) dst) else UB.
  (** layer_inl.h:55-79 copy constructor: a new block per entry, voxels copied *)
  Fixpoint h_copy_blocks (m : amap ptr) (h : heap) (l : hlayer) : res (heap * hlayer) :=
    match m with
    | [] => Ok (h, l)
    | (i, p) :: m' =>
        match nth_error h p with
        | None => UB
        | Some b =>
            let '(h1, l1, q) := h_allocate h l i in
            match nth_error h1 q with
            | None => UB
            | Some nb =>
                rbind (copy_voxels (b_voxels b) (b_voxels nb)) (fun vs =>
                  h_copy_blocks m' (set_nth q (set_voxels vs nb) h1) l1)
            end
        end
    end.

  (** layer.h:170-182 [removeDistantBlocks] *)
  Definition h_distant (h : heap) (c : pt3) (d : f64) (p : ptr) : bool :=
    match nth_error h p with Some b => is_distant c d b | None => false end.
  Definition h_removeDistant (h : heap) (l : hlayer) (c : pt3) (d : f64) : hlayer :=
    hl_with l (fold_left (fun m i => aerase i m)
      (map fst (filter (fun kv => h_distant h c d (snd kv)) (hl_map l))) (hl_map l)).

  (** API calls on layer number [n]; [f] is what the caller does to a block *)
  Inductive op : Type :=
  | ONew (s : f32) (vps : Z)
  | OCopy (n : nat)
  | OAlloc (n : nat) (i : idx3)
  | OInsert (n : nat) (i : idx3) (b : Block k)
  | ORemove (n : nat) (i : idx3)
  | ORemoveAll (n : nat)
  | ORemoveDistant (n : nat) (c : pt3) (d : f64)
  | OFind (n : nat) (i : idx3)
  | OGet (n : nat) (i : idx3)
  | OHas (n : nat) (i : idx3)
  | OMut (n : nat) (i : idx3) (f : Block k -> Block k).
  Inductive out : Type :=
  | OutUnit
  | OutBool (b : bool)
  | OutBlock (b : option (Block k)).

  Definition with_layer (w : world) (n : nat) (f : hlayer -> res (world * out)) : res (world * out) :=
    match nth_error (w_layers w) n with Some l => f l | None => UB end.
  Definition put (w : world) (h : heap) (n : nat) (l : hlayer) : world :=
    World h (set_nth n l (w_layers w)).

  Definition step (w : world) (o : op) : res (world * out) :=
    match o with
    | ONew s vps => (* layer.h:34-44 *)
        if flt f0 s && flt f0 (block_size_of vps s) && (0 <? vps) then
          Ok (World (w_heap w) (w_layers w ++ [HL s vps []]), OutUnit)
        else Abort
    | OCopy n =>
        with_layer w n (fun l =>
          rbind (h_copy_blocks (hl_map l) (w_heap w) (HL (hl_size l) (hl_vps l) [])) (fun hl =>
            Ok (World (fst hl) (w_layers w ++ [snd hl]), OutUnit)))
    | OAlloc n i =>
        with_layer w n (fun l =>
          let '(h, l', p) := h_allocate (w_heap w) l i in
          Ok (put w h n l', OutBlock (nth_error h p)))
    | OInsert n i b => (* layer.h:152-161 *)
        with_layer w n (fun l =>
          Ok (put w (w_heap w ++ [b]) n (hl_with l (ainsert i (length (w_heap w)) (hl_map l))), OutUnit))
    | ORemove n i => (* layer.h:163 *)
        with_layer w n (fun l => Ok (put w (w_heap w) n (hl_with l (aerase i (hl_map l))), OutUnit))
    | ORemoveAll n => (* layer.h:164 *)
        with_layer w n (fun l => Ok (put w (w_heap w) n (hl_with l []), OutUnit))
    | ORemoveDistant n c d =>
        with_layer w n (fun l => Ok (put w (w_heap w) n (h_removeDistant (w_heap w) l c d), OutUnit))
    | OFind n i => (* layer.h:74-91 *)
        with_layer w n (fun l =>
          Ok (w, OutBlock (match h_find l i with Some p => nth_error (w_heap w) p | None => None end)))
    | OGet n i => (* layer.h:56-72: LOG(FATAL) *)
        with_layer w n (fun l =>
          match h_find l i with
          | Some p => Ok (w, OutBlock (nth_error (w_heap w) p))
          | None => Abort
          end)
    | OHas n i => (* layer.h:207-209 *)
        with_layer w n (fun l => Ok (w, OutBool (match h_find l i with Some _ => true | None => false end)))
    | OMut n i f =>
        with_layer w n (fun l =>
          match h_find l i with
          | Some p => match nth_error (w_heap w) p with
                      | Some b => Ok (World (set_nth p (f b) (w_heap w)) (w_layers w), OutUnit)
                      | None => UB
                      end
          | None => Ok (w, OutUnit)
          end)
    end.
  Fixpoint run (w : world) (os : list op) : res (world * list out) :=
    match os with
    | [] => Ok (w, [])
    | o :: os' =>
        rbind (step w o) (fun r => rbind (run (fst r) os') (fun r' => Ok (fst r', snd r :: snd r')))
    end.
End Heap.
Arguments heap k : clear implicits.
Arguments world k : clear implicits.
Arguments op k : clear implicits.
Arguments out k : clear implicits.
