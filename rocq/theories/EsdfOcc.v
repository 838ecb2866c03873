(** /repo/voxblox/include/voxblox/integrator/esdf_occ_integrator.h and
    /repo/voxblox/src/integrator/esdf_occ_integrator.cc. Definitions only; line numbers are those of
    the .cc file unless the header is named. Timers and logging are left out. *)
From Coq Require Import ZArith List Bool.
From Verif Require Import F32 Types Index Neighbor Voxel Assoc Layer Queue Planning Esdf.
Import ListNotations.
Open Scope Z_scope.

(** esdf_occ_integrator.h:27-39 [Config] *)
Record ocfg : Type := MkOC { oc_max : f32; oc_default : f32; oc_buckets : Z }.
(** block index and voxel index: [VoxelKey] *)
Definition vkey : Type := (idx3 * idx3)%type.
(** esdf_occ_integrator.h:66-85: the ESDF layer and [open_]; [raise_] is never used *)
Record ostate : Type := MkOS { os_layer : Layer KEsdf; os_open : bq vkey }.
(** constructor 5-16 *)
Definition occ_new (c : ocfg) (esdf : Layer KEsdf) : ostate :=
  MkOS esdf (bq_setNum (bq_new 0 d0) (oc_buckets c) (f64_of_f32 (oc_max c))).
Definition os_set (st : ostate) (a : addr) (v : EsdfVoxel) : ostate :=
  MkOS (vset (k := KEsdf) (os_layer st) a v) (os_open st).
Definition os_push (st : ostate) (k : vkey) (d : f32) : res ostate :=
  rbind (bq_push (os_open st) k (f64_of_f32 d)) (fun q => Ok (MkOS (os_layer st) q)).

(** ** updateFromOccBlocks *)
(** the occupied case, 63-74: [in_queue] is set and the voxel pushed with its new distance 0 *)
Definition occ_image (c : ocfg) (ov : OccupancyVoxel) (v : EsdfVoxel) : EsdfVoxel :=
  if fgt (o_log ov) f0 then MkEsdf f0 true (e_hallucinated v) true true zero3
  else MkEsdf (oc_default c) true (e_hallucinated v) (e_in_queue v) false zero3.
(** one voxel, 50-83. [occ_voxel.probability_log > 0.0] compares as doubles, which is the same. *)
Definition occ_voxel (c : ocfg) (bi : idx3) (st : ostate) (no : nat * OccupancyVoxel) : res ostate :=
  let '(lin, ov) := no in
  if negb (o_observed ov) then Ok st
  else
    rbind (vget (os_layer st) (bi, lin)) (fun v =>
    rbind (of_opt (computeVoxelIndexFromLinearIndex (l_vps (os_layer st)) (Z.of_nat lin))) (fun vi =>
      let st1 := os_set st (bi, lin) (occ_image c ov v) in
      if fgt (o_log ov) f0 then os_push st1 (bi, vi) f0 else Ok st1)).
(** one block, 37-84; an unallocated block of the occupancy layer aborts (layer.h:66) *)
Definition occ_block (c : ocfg) (occ : Layer KOcc) (st : ostate) (bi : idx3) : res ostate :=
  match l_get occ bi with
  | None => Abort
  | Some ob =>
      let ovs : list OccupancyVoxel := b_voxels ob in
      rfold (occ_voxel c bi) (combine (seq 0 (length ovs)) ovs)
        (MkOS (allocateBlockPtrByIndex (os_layer st) bi) (os_open st))
  end.

(** ** processOpenSet *)
(** getNeighborsAndDistances, 198-265: the three loops *)
Definition pm1 : list Z := [-1; 1].
Definition dirs1 : list idx3 :=
  map (fun j => V3 j 0 0) pm1 ++ map (fun j => V3 0 j 0) pm1 ++ map (fun j => V3 0 0 j) pm1.
Definition dirs2 : list idx3 :=
  flat_map (fun j => map (fun k => V3 j k 0) pm1) pm1 ++ flat_map (fun j => map (fun k => V3 0 j k) pm1) pm1 ++
  flat_map (fun j => map (fun k => V3 k 0 j) pm1) pm1.
Definition dirs3 : list idx3 := flat_map (fun i => flat_map (fun j => map (fun k => V3 i j k) pm1) pm1) pm1.
Definition occ_neighbors : list (idx3 * f32) :=
  map (fun d => (d, f1)) dirs1 ++ map (fun d => (d, f32_of_f64 (dsqrt (f64_of_Z 2)))) dirs2 ++
  map (fun d => (d, f32_of_f64 (dsqrt (f64_of_Z 3)))) dirs3.
(** one axis of getNeighbor, 276-287: the block and voxel coordinates *)
Definition neighbor_axis (vps b v : Z) : Z * Z :=
  if v <? 0 then (b - 1, v + vps) else if vps <=? v then (b + 1, v - vps) else (b, v).
(** getNeighbor, 267-288; overflow of the block index is undefined *)
Definition occ_getNeighbor (vps : Z) (k : vkey) (d : idx3) : res vkey :=
  let v := idx_add (snd k) d in
  let x := neighbor_axis vps (vx (fst k)) (vx v) in
  let y := neighbor_axis vps (vy (fst k)) (vy v) in
  let z := neighbor_axis vps (vz (fst k)) (vz v) in
  rbind (of_opt (seq3 (map3 (fun c => to_int32 (Some c)) (V3 (fst x) (fst y) (fst z))))) (fun b =>
    Ok (b, V3 (snd x) (snd y) (snd z))).
(** 152-163, a voxel that is not occupied and can be reached by a shorter way *)
Definition occ_lower (c : ocfg) (vd : f32) (off : idx3) (step : f32) (nk : vkey) (na : addr) (st : ostate) : res ostate :=
  rbind (vget (os_layer st) na) (fun nv =>
    if negb (e_fixed nv) && flt (fadd vd step) (e_distance nv) then
      let nv1 := ev_parent (ev_dist nv (fadd vd step)) (idx_opp off) in
      if flt (fadd vd step) (oc_max c) && negb (e_in_queue nv) then
        rbind (os_push st nk (fadd vd step)) (fun st1 => Ok (os_set st1 na (ev_queue nv1 true)))
      else Ok (os_set st na nv1)
    else Ok st).
(** 165-174, an occupied voxel whose distance would grow *)
Definition occ_raise (c : ocfg) (vd : f32) (off : idx3) (step : f32) (nk : vkey) (na : addr) (st : ostate) : res ostate :=
  rbind (vget (os_layer st) na) (fun nv =>
    if e_fixed nv && fgt (fsub vd step) (e_distance nv) then
      let nv1 := ev_parent (ev_dist nv (fsub vd step)) (idx_opp off) in
      if negb (e_in_queue nv) then
        rbind (os_push st nk (fsub vd step)) (fun st1 => Ok (os_set st1 na (ev_queue nv1 true)))
      else Ok (os_set st na nv1)
    else Ok st).
(** one neighbour, 132-175; [a] is where the popped voxel is. The CHECK is on the neighbour's
    voxel index. *)
Definition occ_neighbor (c : ocfg) (vs : f32) (k : vkey) (a : addr) (st : ostate) (od : idx3 * f32) : res ostate :=
  rbind (occ_getNeighbor (l_vps (os_layer st)) k (fst od)) (fun nk =>
    match l_get (os_layer st) (fst nk) with
    | None => Ok st
    | Some nb =>
        if negb (isValidVoxelIndex (b_vps nb) (snd nk)) then Abort
        else
          let na := (fst nk, Z.to_nat (computeLinearIndexFromVoxelIndex (b_vps nb) (snd nk))) in
          rbind (vget (os_layer st) na) (fun nv =>
            if negb (e_observed nv) then Ok st
            else
              let step := fmul (snd od) vs in
              rbind (vget (os_layer st) a) (fun v =>
              rbind (occ_lower c (e_distance v) (fst od) step nk na st) (fun st1 =>
              rbind (vget (os_layer st1) a) (fun v1 =>
                occ_raise c (e_distance v1) (fst od) step nk na st1))))
    end).
(** one iteration, 106-178: [in_queue] is cleared last. The 26 neighbours are computed before the
    first is used; here each is computed when it is used. *)
Definition occ_visit (c : ocfg) (st : ostate) (k : vkey) : res ostate :=
  rbind (voxel_of (os_layer st) (fst k) (snd k)) (fun ab =>
    let a := fst ab in
    rbind (vget (os_layer st) a) (fun v =>
      rbind (if negb (e_observed v) || fge (e_distance v) (oc_max c) then Ok st
             else rfold (occ_neighbor c (l_size (os_layer st)) k a) occ_neighbors st) (fun st1 =>
        rbind (vget (os_layer st1) a) (fun v1 => Ok (os_set st1 a (ev_queue v1 false)))))).
Definition occ_pop (c : ocfg) (st : ostate) : res ostate :=
  rbind (bq_front (os_open st)) (fun qk =>
  rbind (bq_pop (fst qk)) (fun q => occ_visit c (MkOS (os_layer st) q) (snd qk))).
(** processOpenSet, 104-192; [Ok None]: not finished within [fuel] iterations *)
Fixpoint occ_process (c : ocfg) (fuel : nat) (st : ostate) : res (option ostate) :=
  if bq_empty (os_open st) then Ok (Some st)
  else match fuel with
       | O => Ok None
       | S f => rbind (occ_pop c st) (occ_process c f)
       end.
(** updateFromOccBlocks, 26-102 *)
Definition updateFromOccBlocks (c : ocfg) (fuel : nat) (occ : Layer KOcc) (blocks : list idx3) (st : ostate)
  : res (option ostate) :=
  rbind (rfold (occ_block c occ) blocks st) (occ_process c fuel).
(** updateFromOccLayerBatch, 19-24 *)
Definition updateFromOccLayerBatch (c : ocfg) (fuel : nat) (occ : Layer KOcc) (st : ostate) : res (option ostate) :=
  updateFromOccBlocks c fuel occ (getAllAllocatedBlocks occ) (MkOS (removeAllBlocks (os_layer st)) (os_open st)).
