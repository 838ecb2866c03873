(** Distribution of work over threads:
    /repo/voxblox/src/integrator/integrator_utils.cc (ThreadSafeIndex) and the
    merged integrator of src/integrator/tsdf_integrator.cc. Definitions only. *)
From Coq Require Import ZArith List Bool.
From Verif Require Import F32 Types Index Assoc Layer.
Import ListNotations.
Open Scope Z_scope.

(** integrator_utils.h:79-81 *)
Definition step_size : Z := 1024.
(** integrator_utils.cc:20-22 *)
Definition number_of_groups (n : Z) : Z := n / step_size.
(** integrator_utils.cc:54-63 [MixedThreadSafeIndex::getNextIndexImpl] *)
Definition mixed_impl (n s : Z) : Z :=
  if number_of_groups n * step_size <=? s then s
  else (s mod number_of_groups n) * step_size + s / number_of_groups n.

(** integrator_utils.cc:24-37 [SortedThreadSafeIndex]: the pairs handed to
    [std::sort]. The norm is a float, widened to double. *)
Fixpoint with_norms (idx : Z) (pts : list pt3) : list (Z * f64) :=
  match pts with
  | [] => []
  | p :: pts' => (idx, f64_of_f32 (sqnorm p)) :: with_norms (idx + 1) pts'
  end.
(** integrator_utils.cc:65-67 [SortedThreadSafeIndex::getNextIndexImpl] on the
    sorted array; out of bounds is impossible as [s < number_of_points] *)
Definition sorted_impl (arr : list (Z * f64)) (s : Z) : Z :=
  match nth_error arr (Z.to_nat s) with Some p => fst p | None => 0 end.

(** ** threads calling [getNextIndex] until it returns false *)
(** where a thread stands: about to call [fetch_add]; holding the value
    [fetch_add] returned; finished *)
Inductive tstate : Type := TIdle | TGot (s : Z) | TDone.
Record istate : Type := MkI {
  i_counter : Z;                 (* atomic_idx_ *)
  i_threads : list tstate;
  i_taken : list (nat * Z) }.    (* (thread, index it was given), in order *)

Fixpoint set_th {A} (n : nat) (x : A) (l : list A) : list A :=
  match l, n with
  | [], _ => []
  | _ :: l', O => x :: l'
  | y :: l', S n' => y :: set_th n' x l'
  end.

(** integrator_utils.cc:40-50 [getNextIndex], one atomic action per step: the
    [fetch_add] (size_t, wraps), then the comparison and the index computation,
    which touch no shared mutable state. [impl] is [getNextIndexImpl]. *)
Definition istep (impl : Z -> Z) (n : Z) (st : istate) (t : nat) : istate :=
  match nth_error (i_threads st) t with
  | Some TIdle =>
      MkI (u64 (i_counter st + 1)) (set_th t (TGot (i_counter st)) (i_threads st)) (i_taken st)
  | Some (TGot s) =>
      if n <=? s then MkI (i_counter st) (set_th t TDone (i_threads st)) (i_taken st)
      else MkI (i_counter st) (set_th t TIdle (i_threads st)) (i_taken st ++ [(t, impl s)])
  | _ => st
  end.
(** a schedule is the list of the threads that take a step *)
Definition irun (impl : Z -> Z) (n : Z) (sched : list nat) (st : istate) : istate :=
  fold_left (istep impl n) sched st.
(** integrator_utils.cc:17-18: counter 0; [threads] threads started *)
Definition iinit (threads : nat) : istate := MkI 0 (repeat TIdle threads) [].

(** ** the merged integrator *)
(** [LongIndexHashMapType<AlignedVector<size_t>>]: association list from voxel
    index to point indices; [map[v].push_back(i)] *)
Definition bundle_map := amap (list Z).
Definition bundle_push (v : idx3) (i : Z) (m : bundle_map) : bundle_map :=
  match alookup v m with
  | Some l => aset v (l ++ [i]) m
  | None => m ++ [(v, [i])]
  end.
(** a point's fate, tsdf_integrator.cc:352-356: [isPointValid] and [is_clearing] *)
Inductive validity : Type := Invalid | Surface | Clearing.
(** tsdf_integrator.cc:340-371 [bundleRays]. [valid i] and [vox i] stand for
    [isPointValid] of point [i] and the grid index of the transformed point
    ([None]: the int64 cast is undefined); [order] are the indices handed out by the
    index getter. *)
Fixpoint bundleRays (valid : Z -> validity) (vox : Z -> option idx3) (order : list Z)
  (maps : bundle_map * bundle_map) : option (bundle_map * bundle_map) :=
  match order with
  | [] => Some maps
  | i :: order' =>
      match valid i with
      | Invalid => bundleRays valid vox order' maps
      | Surface => match vox i with
                   | Some v => bundleRays valid vox order' (bundle_push v i (fst maps), snd maps)
                   | None => None
                   end
      | Clearing => match vox i with
                    | Some v => bundleRays valid vox order' (fst maps, bundle_push v i (snd maps))
                    | None => None
                    end
      end
  end.
(** tsdf_integrator.h:112-129 [isPointValid] *)
Definition isPointValid (min_len max_len : f32) (allow_clear freespace : bool) (ray_distance : f32) : validity :=
  if flt ray_distance min_len then Invalid
  else if fgt ray_distance max_len then
    if allow_clear || freespace then Clearing else Invalid
  else if freespace then Clearing else Surface.

(** tsdf_integrator.cc:434-457 [integrateVoxels]: the positions of the map
    elements thread [t] of [threads] passes to [integrateVoxel] *)
Definition thread_share (threads t : Z) (map_size : nat) : list nat :=
  filter (fun i => (u64 (Z.of_nat i + t + 1)) mod threads =? 0) (seq 0 map_size).

(** ** concurrent allocation of blocks *)
Section Alloc.
  (** [voxels_per_side_inv_], tsdf_integrator.cc:79 *)
  Variable vps_inv : f32.
  (** blocks are the pointers [make_shared] returned; the layer's map is not
      written while threads run *)
  Definition bmap := amap nat.
  (** where a thread stands in [allocateStorageAndGetVoxelPtr], tsdf_integrator.cc:92-134 *)
  Inductive apc : Type :=
  | PStart                       (* before the call for the next voxel *)
  | PWait (b : idx3)             (* *last_block == nullptr: wants temp_block_mutex_ *)
  | PLocked (b : idx3)           (* holds the mutex, before find *)
  | PMissing (b : idx3)          (* holds the mutex, find failed, before emplace *)
  | PUnlock (b : idx3) (p : nat) (* holds the mutex, *last_block set *)
  | PUndefined.
  Record athread : Type := MkAT {
    at_pc : apc;
    at_todo : list idx3;         (* global voxel indices still to be requested *)
    at_last : option (idx3 * nat) (* *last_block_idx and *last_block *) }.
  Record astate : Type := MkA {
    a_layer : bmap;
    a_temp : bmap;               (* temp_block_map_ *)
    a_fresh : nat;               (* the next pointer of make_shared *)
    a_made : list nat;           (* pointers made since the start *)
    a_mutex : option nat;        (* owner of temp_block_mutex_ *)
    a_threads : list athread;
    a_log : list (nat * idx3 * nat) }.  (* (thread, global index, block) returned *)

  (** finish the call of thread [t] for the voxel at the head of its list *)
  Definition a_return (st : astate) (t : nat) (th : athread) (p : nat) (b : idx3) (mx : option nat) : astate :=
    match at_todo th with
    | [] => st
    | g :: rest =>
        MkA (a_layer st) (a_temp st) (a_fresh st) (a_made st) mx
          (set_th t (MkAT PStart rest (Some (b, p))) (a_threads st))
          (a_log st ++ [(t, g, p)])
    end.
  Definition a_goto (st : astate) (t : nat) (th : athread) (pc : apc) (mx : option nat) : astate :=
    MkA (a_layer st) (a_temp st) (a_fresh st) (a_made st) mx
      (set_th t (MkAT pc (at_todo th) (at_last th)) (a_threads st)) (a_log st).

  (** one step of thread [t]; a thread that cannot move leaves the state alone.
      [forget] says whether the caller passes a fresh [nullptr] for [last_block]
      (the merged integrator does, tsdf_integrator.cc:425-428). *)
  Definition astep (forget : bool) (st : astate) (t : nat) : astate :=
    match nth_error (a_threads st) t with
    | None => st
    | Some th =>
        match at_pc th with
        | PStart =>
            match at_todo th with
            | [] => st
            | g :: _ =>
                match getBlockIndexFromGlobalVoxelIndex g vps_inv with
                | None => a_goto st t th PUndefined (a_mutex st)
                | Some b =>
                    (* 100-103 *)
                    let last := match at_last th with
                                | Some (b', p) => if negb forget && idx_eqb b b' then Some p
                                                  else alookup b (a_layer st)
                                | None => alookup b (a_layer st)
                                end in
                    match last with
                    | Some p => a_return st t th p b (a_mutex st)
                    | None => a_goto st t th (PWait b) (a_mutex st)
                    end
                end
            end
        | PWait b => (* 109 lock_guard: blocks while somebody owns the mutex *)
            match a_mutex st with
            | None => a_goto st t th (PLocked b) (Some t)
            | Some _ => st
            end
        | PLocked b => (* 111-114 *)
            match alookup b (a_temp st) with
            | Some p => a_goto st t th (PUnlock b p) (a_mutex st)
            | None => a_goto st t th (PMissing b) (a_mutex st)
            end
        | PMissing b => (* 116-124 *)
            let temp := ainsert b (a_fresh st) (a_temp st) in
            let p := match alookup b temp with Some p => p | None => a_fresh st end in
            a_goto (MkA (a_layer st) temp (S (a_fresh st)) (a_made st ++ [a_fresh st])
                        (a_mutex st) (a_threads st) (a_log st))
              t th (PUnlock b p) (a_mutex st)
        | PUnlock b p => (* 125 unlocks; 128-133 *)
            a_return st t th p b None
        | PUndefined => st
        end
    end.
  Definition arun (forget : bool) (sched : list nat) (st : astate) : astate :=
    fold_left (astep forget) sched st.
  (** layer [m], empty temporary map (tsdf_integrator.cc:146 clears it), one
      thread per request list *)
  Definition ainit (m : bmap) (fresh : nat) (reqs : list (list idx3)) : astate :=
    MkA m [] fresh [] None (map (fun r => MkAT PStart r None) reqs) [].
  (** tsdf_integrator.cc:137-147 [updateLayerWithStoredBlocks]; layer.h:152-161
      [insertBlock] *)
  Definition updateLayerWithStoredBlocks (st : astate) : astate :=
    MkA (fold_left (fun m kv => ainsert (fst kv) (snd kv) m) (a_temp st) (a_layer st)) []
      (a_fresh st) (a_made st) (a_mutex st) (a_threads st) (a_log st).
End Alloc.
