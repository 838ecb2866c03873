(** /repo/voxblox/include/voxblox/integrator/esdf_integrator.h and
    /repo/voxblox/src/integrator/esdf_integrator.cc. Definitions only; line numbers
    are those of esdf_integrator.cc unless the header is named. Timers and logging
    are left out. *)
From Coq Require Import ZArith List Bool.
From Verif Require Import F32 Types Index Neighbor Voxel Serialize Assoc Layer Queue Planning.
Import ListNotations.
Open Scope Z_scope.

(** esdf_integrator.h:29-78 [Config] *)
Record econfig : Type := MkEC {
  ec_full : bool; ec_max : f32; ec_min : f32; ec_default : f32; ec_min_diff : f32;
  ec_min_weight : f32; ec_buckets : Z; ec_multi : bool; ec_crust : bool;
  ec_clear_r : f32; ec_occ_r : f32 }.
(** esdf_integrator.h:156-178: the layers the integrator points to, [open_],
    [raise_], [updated_blocks_] *)
Record estate : Type := MkES {
  es_layer : Layer KEsdf; es_open : bq idx3; es_raise : list idx3; es_updated : list idx3 }.
Definition with_layer (st : estate) (l : Layer KEsdf) : estate :=
  MkES l (es_open st) (es_raise st) (es_updated st).
Definition with_open (st : estate) (q : bq idx3) : estate :=
  MkES (es_layer st) q (es_raise st) (es_updated st).
Definition with_raise (st : estate) (r : list idx3) : estate :=
  MkES (es_layer st) (es_open st) r (es_updated st).
Definition with_updated (st : estate) (u : list idx3) : estate :=
  MkES (es_layer st) (es_open st) (es_raise st) u.

(** constructor 7-21: CHECK_EQ on voxels per side, CHECK_NEAR (doubles, both
    bounds) on the voxel sizes; the queue is default constructed
    (bucket_queue.h:23, no buckets) and then resized *)
Definition near_sizes (a b : f32) : bool :=
  let x := f64_of_f32 a in let y := f64_of_f32 b in
  dle x (dadd y d1em6) && dge x (dsub y d1em6).
Definition esdf_new (c : econfig) (tsdf : Layer KTsdf) (esdf : Layer KEsdf) : res estate :=
  if (l_vps esdf =? l_vps tsdf) && near_sizes (l_size esdf) (l_size tsdf) then
    Ok (MkES esdf (bq_setNum (bq_new 0 d0) (ec_buckets c) (f64_of_f32 (ec_max c))) [] [])
  else Abort.

(** common.h:258 [signum] (an int) *)
Definition signum (x : f32) : Z := if feq x f0 then 0 else if flt x f0 then -1 else 1.
(** [signum(x) * y]: the int is converted to float *)
Definition sgnmul (x y : f32) : f32 := fmul (f32_of_Z (signum x)) y.
(** esdf_integrator.h:134-136 [isFixed] *)
Definition isFixed (c : econfig) (d : f32) : bool := flt (fabs d) (ec_min c).
(** the test of 387-388 and 516-517 *)
Definition beyond (c : econfig) (d : f32) : bool := fge d (ec_max c) || fle d (fneg (ec_max c)).

(** [open_.push(g, distance)]: the float is converted to double *)
Definition open_push (st : estate) (g : idx3) (d : f32) : res estate :=
  rbind (bq_push (es_open st) g (f64_of_f32 d)) (fun q => Ok (with_open st q)).
Definition raise_push (st : estate) (g : idx3) : estate := with_raise st (es_raise st ++ [g]).
(** store a voxel *)
Definition st_set (st : estate) (a : addr) (v : EsdfVoxel) : estate :=
  with_layer st (vset (k := KEsdf) (es_layer st) a v).
(** member updates *)
Definition ev_dist (v : EsdfVoxel) (d : f32) : EsdfVoxel :=
  MkEsdf d (e_observed v) (e_hallucinated v) (e_in_queue v) (e_fixed v) (e_parent v).
Definition ev_parent (v : EsdfVoxel) (p : idx3) : EsdfVoxel :=
  MkEsdf (e_distance v) (e_observed v) (e_hallucinated v) (e_in_queue v) (e_fixed v) p.
Definition ev_queue (v : EsdfVoxel) (q : bool) : EsdfVoxel :=
  MkEsdf (e_distance v) (e_observed v) (e_hallucinated v) q (e_fixed v) (e_parent v).
Definition ev_fixed (v : EsdfVoxel) (f : bool) : EsdfVoxel :=
  MkEsdf (e_distance v) (e_observed v) (e_hallucinated v) (e_in_queue v) f (e_parent v).
Definition ev_seen (v : EsdfVoxel) (o h : bool) : EsdfVoxel :=
  MkEsdf (e_distance v) o h (e_in_queue v) (e_fixed v) (e_parent v).
Definition zero3 : idx3 := V3 0 0 0.
Definition idx_opp (i : idx3) : idx3 := map3 Z.opp i.

(** ** processOpenSet *)
(** [new_parent.cast<FloatingPoint>().norm()] *)
Definition idx_norm (i : idx3) : f32 := fnorm (map3 f32_of_Z i).
(** 414-426: the parent given to the neighbour and the length of the step; [None]:
    the neighbour is skipped. int32 overflow of the parent is undefined. *)
Definition open_parent (c : econfig) (vs : f32) (v : EsdfVoxel) (off : idx3) (kd : f32)
  : res (option (idx3 * f32)) :=
  if ec_full c then
    rbind (of_opt (seq3 (map3 (fun z => to_int32 (Some z)) (idx_sub (e_parent v) off)))) (fun p =>
      let d := fmul vs (fsub (idx_norm p) (idx_norm (e_parent v))) in
      if flt d f0 then Ok None else Ok (Some (p, d)))
  else Ok (Some (idx_opp off, fmul kd vs)).
(** 428-489: the distance given to the neighbour ([None]: unchanged) *)
Definition open_value (c : econfig) (vd nd d : f32) : option f32 :=
  if fgt vd f0 && fgt nd f0 then
    if flt (fadd (fadd vd d) (ec_min_diff c)) nd then Some (fadd vd d) else None
  else if fle vd f0 && fle nd f0 then
    if fgt (fsub (fsub vd d) (ec_min_diff c)) nd then Some (fsub vd d) else None
  else
    let pot := fsub vd (sgnmul vd d) in
    if fgt (fabs (fsub pot nd)) d then
      (** 464 compares the sign of one distance with the other distance *)
      if feq (f32_of_Z (signum pot)) nd then Some pot else Some (sgnmul nd d)
    else None.
(** 434-441 (the same in the four cases): store distance and parent, push *)
Definition open_store (c : econfig) (st : estate) (ng : idx3) (na : addr) (nv : EsdfVoxel) (d : f32) (p : idx3)
  : res estate :=
  let nv1 := ev_parent (ev_dist nv d) p in
  if ec_multi c || negb (e_in_queue nv) then
    rbind (open_push st ng d) (fun st1 => Ok (st_set st1 na (ev_queue nv1 true)))
  else Ok (st_set st na nv1).
(** one neighbour, 396-490; [a] is where the popped voxel is *)
Definition open_neighbor (c : econfig) (vs : f32) (g : idx3) (a : addr) (st : estate) (od : idx3 * f32)
  : res estate :=
  let ng := idx_add g (fst od) in
  rbind (voxel_ptr (es_layer st) ng) (fun o =>
    match o with
    | None => Ok st
    | Some na =>
        rbind (vget (es_layer st) na) (fun nv =>
          if negb (e_observed nv) || e_fixed nv then Ok st
          else
            rbind (vget (es_layer st) a) (fun v =>
            rbind (open_parent c vs v (fst od) (snd od)) (fun pd =>
              match pd with
              | None => Ok st
              | Some (p, d) =>
                  match open_value c (e_distance v) (e_distance nv) d with
                  | None => Ok st
                  | Some d' => open_store c st ng na nv d' p
                  end
              end)))
    end).
(** the 26 neighbours with their distances *)
Definition neighbors26 : list (idx3 * f32) := combine kOffsets kDistances.
(** the body of the while loop for one element, 382-490 *)
Definition open_visit (c : econfig) (st : estate) (g : idx3) : res estate :=
  rbind (voxel_ptr (es_layer st) g) (fun o =>
    match o with
    | None => Abort
    | Some a =>
        rbind (vget (es_layer st) a) (fun v =>
          let st1 := st_set st a (ev_queue v false) in
          if negb (e_observed v) || beyond c (e_distance v) then Ok st1
          else rfold (open_neighbor c (l_size (es_layer st)) g a) neighbors26 st1)
    end).
(** one iteration of the while loop, 379-490 *)
Definition open_pop (c : econfig) (st : estate) : res estate :=
  rbind (bq_front (es_open st)) (fun qg =>
  rbind (bq_pop (fst qg)) (fun q => open_visit c (with_open st q) (snd qg))).
(** processOpenSet, 371-496; [Ok None]: not finished within [fuel] iterations *)
Fixpoint processOpenSet (c : econfig) (fuel : nat) (st : estate) : res (option estate) :=
  if bq_empty (es_open st) then Ok (Some st)
  else match fuel with
       | O => Ok None
       | S f => rbind (open_pop c st) (processOpenSet c f)
       end.

(** ** processRaiseSet *)
(** 340-348: Eigen's [normalized] leaves the zero vector alone; [std::round], then
    a cast to int (the components are within [-1, 1]) *)
Definition round_direction (p : idx3) : res idx3 :=
  let q := map3 f32_of_Z p in
  let z := sqnorm q in
  let n := if fgt z f0 then map3 (fun c => fdiv c (fsqrt z)) q else q in
  of_opt (seq3 (map3 (fun c => to_int32 (froundZ c)) n)).
(** 338-348 *)
Definition is_parent (c : econfig) (nv : EsdfVoxel) (off : idx3) : res bool :=
  if ec_full c then rbind (round_direction (e_parent nv)) (fun r => Ok (idx_eqb r (idx_opp off)))
  else Ok (idx_eqb (e_parent nv) (idx_opp off)).
(** one neighbour, 326-365 *)
Definition raise_neighbor (c : econfig) (g : idx3) (st : estate) (od : idx3 * f32) : res estate :=
  let ng := idx_add g (fst od) in
  rbind (voxel_ptr (es_layer st) ng) (fun o =>
    match o with
    | None => Ok st
    | Some na =>
        rbind (vget (es_layer st) na) (fun nv =>
          if negb (e_observed nv) || e_fixed nv then Ok st
          else
            rbind (is_parent c nv (fst od)) (fun ip =>
              if (ip : bool) then
                Ok (raise_push (st_set st na (ev_parent (ev_dist nv (sgnmul (e_distance nv) (ec_default c))) zero3)) ng)
              else if negb (e_in_queue nv) then
                rbind (open_push st ng (e_distance nv)) (fun st1 => Ok (st_set st1 na (ev_queue nv true)))
              else Ok st))
    end).
(** one iteration, 315-366 *)
Definition raise_visit (c : econfig) (st : estate) (g : idx3) : res estate :=
  rbind (voxel_ptr (es_layer st) g) (fun o =>
    match o with
    | None => Abort
    | Some _ => rfold (raise_neighbor c g) neighbors26 st
    end).
(** processRaiseSet, 305-369 *)
Fixpoint processRaiseSet (c : econfig) (fuel : nat) (st : estate) : res (option estate) :=
  match es_raise st with
  | [] => Ok (Some st)
  | g :: r =>
      match fuel with
      | O => Ok None
      | S f => rbind (raise_visit c (with_raise st r) g) (processRaiseSet c f)
      end
  end.

(** ** updateVoxelFromNeighbors, 498-530 *)
(** the step length is not scaled by the voxel size, 508 *)
Fixpoint from_neighbors (c : econfig) (g : idx3) (a : addr) (l : Layer KEsdf) (ns : list (idx3 * f32))
  : res (Layer KEsdf * bool) :=
  match ns with
  | [] => Ok (l, false)
  | (off, kd) :: ns' =>
      rbind (voxel_ptr l (idx_add g off)) (fun o =>
        match o with
        | None => from_neighbors c g a l ns'
        | Some na =>
            rbind (vget l na) (fun nv =>
            rbind (vget l a) (fun v =>
              if negb (e_observed nv) || beyond c (e_distance nv) then from_neighbors c g a l ns'
              else if (signum (e_distance nv) =? signum (e_distance v))
                      && flt (fabs (e_distance nv)) (fabs (e_distance v)) then
                Ok (vset (k := KEsdf) l a (ev_parent (ev_dist v (fadd (e_distance nv) (sgnmul (e_distance v) kd)))
                                             (idx_opp off)), true)
              else from_neighbors c g a l ns'))
        end)
  end.
Definition updateVoxelFromNeighbors (c : econfig) (l : Layer KEsdf) (g : idx3) : res (Layer KEsdf * bool) :=
  rbind (voxel_ptr l g) (fun o =>
    match o with None => Abort | Some a => from_neighbors c g a l neighbors26 end).

(** ** updateFromTsdfBlocks *)
(** [signum(tsdf) * default] *)
Definition far_value (c : econfig) (td : f32) : f32 := sgnmul td (ec_default c).
(** set [in_queue] and push with the current distance, e.g. 183-184 *)
Definition queue_voxel (st : estate) (g : idx3) (a : addr) : res estate :=
  rbind (vget (es_layer st) a) (fun v =>
    let st1 := st_set st a (ev_queue v true) in open_push st1 g (e_distance v)).
(** 174-200: nothing there before, or only a hallucinated value *)
Definition new_voxel (c : econfig) (incremental : bool) (g : idx3) (a : addr) (v : EsdfVoxel) (td : f32) (st : estate)
  : res estate :=
  let st1 := if e_hallucinated v then raise_push st g else st in
  rbind
    (if isFixed c td then queue_voxel (st_set st1 a (ev_fixed (ev_dist v td) true)) g a
     else
       let st2 := st_set st1 a (ev_fixed (ev_dist v (far_value c td)) false) in
       if incremental then
         rbind (updateVoxelFromNeighbors c (es_layer st2) g) (fun lb =>
           if (snd lb : bool) then queue_voxel (with_layer st2 (fst lb)) g a
           else Ok (with_layer st2 (fst lb)))
       else Ok st2)
    (fun st3 => rbind (vget (es_layer st3) a) (fun v3 => Ok (st_set st3 a (ev_parent v3 zero3)))).
(** 222-227 and 240-245 *)
Definition lowers (c : econfig) (ed td : f32) : bool :=
  (fgt ed f0 && flt (fadd td (ec_min_diff c)) ed) || (fle ed f0 && fgt (fsub td (ec_min_diff c)) ed).
Definition raises (c : econfig) (ed td : f32) : bool :=
  (fgt ed f0 && fgt (fsub td (ec_min_diff c)) ed) || (fle ed f0 && flt (fadd td (ec_min_diff c)) ed).
(** 201-282: the voxel existed before. At 229-235 and 247-253 [tsdf_fixed] holds,
    so the distance is the TSDF's. *)
Definition old_voxel (c : econfig) (g : idx3) (a : addr) (v : EsdfVoxel) (td : f32) (st : estate) : res estate :=
  let far := ev_parent (ev_dist v (far_value c td)) zero3 in
  let near := ev_parent (ev_fixed (ev_dist v td) true) zero3 in
  if isFixed c td || e_fixed v then
    if negb (isFixed c td) then queue_voxel (raise_push (st_set st a (ev_fixed far false)) g) g a
    else if lowers c (e_distance v) td then queue_voxel (st_set st a near) g a
    else if raises c (e_distance v) td then queue_voxel (raise_push (st_set st a near) g) g a
    else Ok st
  else if negb (signum td =? signum (e_distance v)) then
    if flt td (e_distance v) then queue_voxel (st_set st a far) g a
    else Ok (raise_push (st_set st a far) g)
  else Ok st.
(** one voxel, 151-285 *)
Definition tsdf_voxel (c : econfig) (incremental : bool) (bi : idx3) (st : estate) (nt : nat * TsdfVoxel)
  : res estate :=
  let '(lin, tv) := nt in
  let a := (bi, lin) in
  if flt (t_weight tv) (ec_min_weight c) then
    if negb incremental && ec_crust c then
      rbind (vget (es_layer st) a) (fun v =>
        Ok (st_set st a (ev_fixed (ev_seen (ev_dist v (fneg (ec_default c))) true true) false)))
    else Ok st
  else
    rbind (vget (es_layer st) a) (fun v =>
    rbind (of_opt (computeVoxelIndexFromLinearIndex (l_vps (es_layer st)) (Z.of_nat lin))) (fun vi =>
      let g := getGlobalVoxelIndexFromBlockAndVoxelIndex bi vi (l_vps (es_layer st)) in
      rbind (if negb (e_observed v) || e_hallucinated v
             then new_voxel c incremental g a v (t_distance tv) st
             else old_voxel c g a v (t_distance tv) st)
        (fun st1 => rbind (vget (es_layer st1) a) (fun v1 => Ok (st_set st1 a (ev_seen v1 true false)))))).
(** block.h:176 [set_updated(true)]: the bool converts to [bitset(1)], which has
    bit 0 ([Update::kMap]) set and the others clear *)
Definition upd_bool_true : upd := MkUpd true false false.
(** one block, 136-287 *)
Definition tsdf_block (c : econfig) (incremental : bool) (tsdf : Layer KTsdf) (st : estate) (bi : idx3)
  : res estate :=
  match l_get tsdf bi with
  | None => Ok st
  | Some tb =>
      let l := set_block (allocateBlockPtrByIndex (es_layer st) bi) bi (set_updated upd_bool_true) in
      let tvs : list TsdfVoxel := b_voxels tb in
      rfold (tsdf_voxel c incremental bi) (combine (seq 0 (length tvs)) tvs) (with_layer st l)
  end.
(** updateFromTsdfBlocks, 124-302 *)
Definition updateFromTsdfBlocks (c : econfig) (fuel : nat) (tsdf : Layer KTsdf) (blocks : list idx3)
    (incremental : bool) (st : estate) : res (option estate) :=
  if l_vps tsdf =? l_vps (es_layer st) then
    rbind (rfold (tsdf_block c incremental tsdf) blocks st) (fun st1 =>
    rbind (processRaiseSet c fuel st1) (fun o =>
      match o with None => Ok None | Some st2 => processOpenSet c fuel st2 end))
  else Abort.
(** updateFromTsdfLayerBatch, 94-102 *)
Definition updateFromTsdfLayerBatch (c : econfig) (fuel : nat) (tsdf : Layer KTsdf) (st : estate)
  : res (option estate) :=
  updateFromTsdfBlocks c fuel tsdf (getAllAllocatedBlocks tsdf ++ es_updated st) false
    (with_updated (with_layer st (removeAllBlocks (es_layer st))) []).
(** updateFromTsdfLayer, 104-122: the TSDF layer with its flags, and the new state *)
Definition updateFromTsdfLayer (c : econfig) (fuel : nat) (clear : bool) (tsdf : Layer KTsdf) (st : estate)
  : res (option (Layer KTsdf * estate)) :=
  let blocks := getAllUpdatedBlocks tsdf kEsdf ++ es_updated st in
  rbind (updateFromTsdfBlocks c fuel tsdf blocks true (with_updated st [])) (fun o =>
    match o with
    | None => Ok None
    | Some st' =>
        Ok (Some (if clear
                  then fold_left (fun t i => set_block t i (fun b => set_updated (upd_reset (b_updated b) kEsdf) b))
                         blocks tsdf
                  else tsdf, st'))
    end).

(** ** addNewRobotPosition, 25-92 *)
(** [updated_blocks_.insert] (a set) *)
Definition insert_updated (st : estate) (bi : idx3) : estate :=
  if existsb (idx_eqb bi) (es_updated st) then st else with_updated st (es_updated st ++ [bi]).
(** one voxel of the inner sphere, 38-56 *)
Definition robot_clear (c : econfig) (st : estate) (bv : idx3 * idx3) : res estate :=
  let '(bi, vi) := bv in
  rbind (voxel_of (es_layer st) bi vi) (fun ab =>
    let '(a, bl) := ab in
    if negb (isValidVoxelIndex (b_vps bl) vi) then Ok st
    else
      rbind (vget (es_layer st) a) (fun v =>
        if negb (e_observed v) || e_hallucinated v then
          let st1 := if e_hallucinated v
                     then raise_push st (getGlobalVoxelIndexFromBlockAndVoxelIndex bi vi (l_vps (es_layer st)))
                     else st in
          Ok (insert_updated
                (st_set st1 a (ev_parent (ev_seen (ev_dist v (ec_default c)) true true) zero3)) bi)
        else Ok st)).
(** one voxel of the outer sphere, 70-86: pushed without setting [in_queue] *)
Definition robot_occupy (c : econfig) (st : estate) (bv : idx3 * idx3) : res estate :=
  let '(bi, vi) := bv in
  rbind (voxel_of (es_layer st) bi vi) (fun ab =>
    let '(a, bl) := ab in
    if negb (isValidVoxelIndex (b_vps bl) vi) then Ok st
    else
      rbind (vget (es_layer st) a) (fun v =>
        if negb (e_observed v) then
          Ok (insert_updated
                (st_set st a (ev_parent (ev_seen (ev_dist v (fneg (ec_default c))) true true) zero3)) bi)
        else if negb (e_in_queue v) then
          open_push st (getGlobalVoxelIndexFromBlockAndVoxelIndex bi vi (l_vps (es_layer st))) (e_distance v)
        else Ok st)).
Definition addNewRobotPosition (c : econfig) (fuel : nat) (p : pt3) (st : estate) : res (option estate) :=
  rbind (getAndAllocateSphereAroundPoint fuel (es_layer st) p (ec_clear_r c)) (fun o =>
    match o with
    | None => Ok None
    | Some (l1, m1) =>
        rbind (rfold (robot_clear c) (hier_list m1) (with_layer st l1)) (fun st1 =>
        rbind (getAndAllocateSphereAroundPoint fuel (es_layer st1) p (ec_occ_r c)) (fun o2 =>
          match o2 with
          | None => Ok None
          | Some (l2, m2) =>
              rbind (rfold (robot_occupy c) (hier_list m2) (with_layer st1 l2)) (fun st2 => Ok (Some st2))
          end))
    end).
(** esdf_integrator.h:138-142 [clear] *)
Definition esdf_clear (st : estate) : estate := MkES (es_layer st) (bq_clear (es_open st)) [] [].
