(** Whole point clouds: the three integrators of
    /repo/voxblox/src/integrator/tsdf_integrator.cc. Definitions only. *)
From Coq Require Import ZArith List Bool.
From Verif Require Import F32 Types Index Voxel Serialize Assoc Layer Threads Update Ray Planning.
Import ListNotations.
Open Scope Z_scope.

(** ** Storage *)
(** the layer and [temp_block_map_], tsdf_integrator.h:163 *)
Record store : Type := MkStore { st_layer : Layer KTsdf; st_temp : amap (Block KTsdf) }.
(** whether a [Block::Ptr] is shared with the layer or with [temp_block_map_] *)
Inductive home : Type := InLayer | InTemp.
(** [*last_block_idx] and [*last_block] of a thread; [None] is nullptr *)
Definition cache : Type := option (idx3 * home).

Definition block_of_home (st : store) (h : home) (b : idx3) : option (Block KTsdf) :=
  match h with InLayer => l_get (st_layer st) b | InTemp => alookup b (st_temp st) end.
Definition put_block (st : store) (h : home) (b : idx3) (x : Block KTsdf) : store :=
  match h with
  | InLayer => MkStore (with_blocks (st_layer st) (aset b x (l_blocks (st_layer st)))) (st_temp st)
  | InTemp => MkStore (st_layer st) (aset b x (st_temp st))
  end.
(** tsdf_integrator.cc:98-123: the cached block, the layer's, the stored one, or a new one *)
Definition find_block (st : store) (c : cache) (b : idx3) : store * home :=
  let l := st_layer st in
  let search :=
    match l_get l b with
    | Some _ => (st, InLayer)
    | None =>
        match alookup b (st_temp st) with
        | Some _ => (st, InTemp)
        | None => (MkStore l (ainsert b (new_block (l_vps l) (l_size l)
                     (getOriginPointFromGridIndex b (l_block_size l))) (st_temp st)), InTemp)
        end
    end in
  match c with
  | Some (b', h) => if idx_eqb b b' then (st, h) else search
  | None => search
  end.

(** tsdf_integrator.cc:88-134 [allocateStorageAndGetVoxelPtr] followed by
    [updateTsdfVoxel] of the voxel (lines 298-303, 425-430, 536-541). The two are one
    step here: C21 covers the interleavings inside the first, C56 those inside the
    second. *)
Definition touch (cfg : TsdfConfig) (st : store) (c : cache) (q : request) : res (store * cache) :=
  let vps := l_vps (st_layer st) in
  rbind (of_opt (getBlockIndexFromGlobalVoxelIndex (q_idx q) (vps_inv_common vps))) (fun bi =>
  let '(st, h) := find_block st c bi in
  rbind (of_opt (block_of_home st h bi)) (fun b =>
  let b := set_updated upd_all b in
  rbind (getLocalFromGlobalVoxelIndex (q_idx q) vps) (fun loc =>
  let n := Z.to_nat (computeLinearIndexFromVoxelIndex (b_vps b) loc) in
  rbind (of_opt (nth_error (b_voxels b) n)) (fun v =>
  rbind (updateTsdfVoxel cfg (l_size (st_layer st)) q v) (fun v' =>
  Ok (put_block st h bi (set_voxels (k:=KTsdf) (set_th n v' (b_voxels b)) b), Some (bi, h))))))).

(** tsdf_integrator.cc:137-147 [updateLayerWithStoredBlocks] *)
Definition storeBlocks (st : store) : Layer KTsdf :=
  fold_left (fun l kv => insertBlock l (fst kv) (snd kv)) (st_temp st) (st_layer st).

(** ** Threads *)
(** a call: [true] when [block] has just been set to nullptr (lines 292, 423, 518) *)
Definition call : Type := (bool * request)%type.
Record worker : Type := MkW { w_todo : list call; w_cache : cache }.
Record cstate : Type := MkCS { cs_store : store; cs_workers : list worker }.
(** thread [t] makes its next call *)
Definition cstep (cfg : TsdfConfig) (s : cstate) (t : nat) : res cstate :=
  match nth_error (cs_workers s) t with
  | Some (MkW ((fresh, q) :: todo) c) =>
      rbind (touch cfg (cs_store s) (if fresh : bool then None else c) q) (fun r =>
      Ok (MkCS (fst r) (set_th t (MkW todo (snd r)) (cs_workers s))))
  | _ => Ok s
  end.
Definition crun (cfg : TsdfConfig) (sched : list nat) (s : cstate) : res cstate := rfold (cstep cfg) sched s.
Definition finished (s : cstate) : bool :=
  forallb (fun w => match w_todo w with [] => true | _ => false end) (cs_workers s).
(** the threads are started, joined, and the new blocks stored (lines 253-267,
    467-486, 568-590). [Ok None]: the schedule ends before the threads do. *)
Definition run_threads (cfg : TsdfConfig) (l : Layer KTsdf) (progs : list (list call)) (sched : list nat)
  : res (option (Layer KTsdf)) :=
  rbind (crun cfg sched (MkCS (MkStore l []) (map (fun p => MkW p None) progs))) (fun s =>
  Ok (if finished s then Some (storeBlocks (cs_store s)) else None)).

(** ** Points *)
(** tsdf_integrator.h:56-103, the members read here *)
Record CloudConfig : Type := MkCC {
  cc_tsdf : TsdfConfig;
  cc_min_ray : f32;           (* min_ray_length_m *)
  cc_max_ray : f32;           (* max_ray_length_m *)
  cc_allow_clear : bool;
  cc_carving : bool;          (* voxel_carving_enabled *)
  cc_anti_grazing : bool;
  cc_subsampling : f32;       (* start_voxel_subsampling_factor *)
  cc_collisions : Z }.        (* max_consecutive_ray_collisions *)
(** [T_G_C]: [getPosition] and [T_G_C * p]; minkindr's arithmetic is not modelled, any
    function may stand for it *)
Record pose : Type := MkPose { p_position : pt3; p_apply : pt3 -> pt3 }.
(** the arguments of [integratePointCloud] *)
Record cloud : Type := MkCloud {
  cl_pose : pose; cl_points : list pt3; cl_colors : list Color; cl_freespace : bool }.

(** tsdf_integrator.h:112-129 [isPointValid]; tsdf_integrator.cc:62-65 *)
Definition classify (cc : CloudConfig) (freespace : bool) (point_C : pt3) : validity :=
  isPointValid (cc_min_ray cc) (cc_max_ray cc) (cc_allow_clear cc && cc_carving cc) freespace (norm3 point_C).
Definition is_clearing (v : validity) : bool := match v with Clearing => true | _ => false end.

(** lines 287-291, 405-407, 512-516: the [RayCaster] and all its indices. [Ok None]:
    [fuel] calls of [nextRayIndex] were not enough. [garbage]: members before the
    constructor. *)
Definition ray_cells (fuel : nat) (garbage : caster) (cc : CloudConfig) (voxel_size : f32)
  (origin point_G : pt3) (clearing from_origin : bool) : res (option (list idx3)) :=
  rbind (RayCaster_new garbage origin point_G clearing (cc_carving cc) (cc_max_ray cc) (inv_of voxel_size)
           (c_trunc (cc_tsdf cc)) from_origin) (fun c => Ok (cast_loop fuel c)).

(** a ray's calls, the first with [block == nullptr] *)
Definition ray_calls (qs : list request) : list call :=
  match qs with [] => [] | q :: qs' => (true, q) :: map (fun q => (false, q)) qs' end.
(** one after the other; not terminated as soon as one is not *)
Fixpoint rconcat {A} (rs : list (res (option (list A)))) : res (option (list A)) :=
  match rs with
  | [] => Ok (Some [])
  | r :: rs' =>
      rbind r (fun x => match x with
        | None => Ok None
        | Some a => rbind (rconcat rs') (fun y => Ok (option_map (app a) y))
        end)
  end.
Fixpoint rcollect {A} (rs : list (res (option A))) : res (option (list A)) :=
  match rs with
  | [] => Ok (Some [])
  | r :: rs' =>
      rbind r (fun x => match x with
        | None => Ok None
        | Some a => rbind (rcollect rs') (fun y => Ok (option_map (cons a) y))
        end)
  end.

Section Integrators.
  Variable fuel : nat.
  Variable garbage : caster.
  Variable cc : CloudConfig.
  Variable voxel_size : f32.
  Variable cl : cloud.

  Definition origin : pt3 := p_position (cl_pose cl).
  Definition point_at (i : Z) : res (pt3 * Color) :=
    rbind (of_opt (nth_error (cl_points cl) (Z.to_nat i))) (fun p =>
    rbind (of_opt (nth_error (cl_colors cl) (Z.to_nat i))) (fun c => Ok (p, c))).

  (** *** simple *)
  (** lines 276-304, one pass of the loop of [SimpleTsdfIntegrator::integrateFunction] *)
  Definition simple_point (i : Z) : res (option (list call)) :=
    rbind (point_at i) (fun pc =>
    let '(point_C, color) := pc in
    match classify cc (cl_freespace cl) point_C with
    | Invalid => Ok (Some [])
    | v =>
        let point_G := p_apply (cl_pose cl) point_C in
        rbind (ray_cells fuel garbage cc voxel_size origin point_G (is_clearing v) true) (fun cells =>
        Ok (option_map (fun gs => ray_calls (map (fun g =>
              MkReq origin point_G g color (getVoxelWeight (cc_tsdf cc) point_C)) gs)) cells))
    end).
  (** the threads' calls; [taken]: the point indices each thread got from the index
      getter, in its order *)
  Definition simple_progs (taken : list (list Z)) : res (option (list (list call))) :=
    rcollect (map (fun is => rconcat (map simple_point is)) taken).

  (** *** merged *)
  (** lines 383-401, the loop over the points of a bundle; the accumulated colour,
      point and weight *)
  Fixpoint merge_points (clearing : bool) (is : list Z) (mc : Color) (mp : pt3) (mw : f32)
    : res (Color * pt3 * f32) :=
    match is with
    | [] => Ok (mc, mp, mw)
    | i :: is' =>
        rbind (point_at i) (fun pc =>
        let '(point_C, color) := pc in
        let w := getVoxelWeight (cc_tsdf cc) point_C in
        if flt w kEpsilon then merge_points clearing is' mc mp mw else
        let mp' := zip3 (fun a b => fdiv (fadd (fmul a mw) (fmul b w)) (fadd mw w)) mp point_C in
        rbind (of_opt (blendTwoColors mc mw color w)) (fun mc' =>
        let mw' := fadd mw w in
        if clearing then Ok (mc', mp', mw') else merge_points clearing is' mc' mp' mw'))
    end.
  (** 412-420: the cells of the ray that are not skipped *)
  Definition kept (clearing : bool) (own : idx3) (voxel_map : bundle_map) (g : idx3) : bool :=
    negb (cc_anti_grazing cc && ((clearing || negb (idx_eqb g own)) &&
            match alookup g voxel_map with Some _ => true | None => false end)).
  (** lines 372-432 [integrateVoxel] *)
  Definition merged_voxel (clearing : bool) (voxel_map : bundle_map) (kv : idx3 * list Z)
    : res (option (list call)) :=
    match snd kv with
    | [] => Ok (Some [])
    | _ =>
        rbind (merge_points clearing (snd kv) (MkColor 0 0 0 0) (V3 f0 f0 f0) f0) (fun m =>
        let '(mc, mp, mw) := m in
        let point_G := p_apply (cl_pose cl) mp in
        rbind (ray_cells fuel garbage cc voxel_size origin point_G clearing true) (fun cells =>
        Ok (option_map (fun gs => map (fun g => (true, MkReq origin point_G g mc mw))
                                      (filter (kept clearing (fst kv) voxel_map) gs)) cells)))
    end.
  (** lines 340-370 [bundleRays], [order]: the indices in the order of the index getter *)
  Definition bundles (order : list Z) : res (bundle_map * bundle_map) :=
    of_opt (bundleRays
      (fun i => match nth_error (cl_points cl) (Z.to_nat i) with
                | Some p => classify cc (cl_freespace cl) p | None => Invalid end)
      (fun i => match nth_error (cl_points cl) (Z.to_nat i) with
                | Some p => getGlobalGridIndexFromPoint (p_apply (cl_pose cl) p) (inv_of voxel_size)
                | None => None end) order ([], [])).
  (** lines 434-458 [integrateVoxels]: the calls of thread [t]; [m]: the map it walks
      through *)
  Definition merged_share (threads : nat) (clearing : bool) (voxel_map m : bundle_map) (t : nat)
    : res (option (list call)) :=
    rconcat (map (fun n => match nth_error m n with
                           | Some kv => merged_voxel clearing voxel_map kv
                           | None => UB
                           end) (thread_share (Z.of_nat threads) (Z.of_nat t) (length m))).
  Definition merged_progs (threads : nat) (clearing : bool) (voxel_map m : bundle_map)
    : res (option (list (list call))) :=
    rcollect (map (merged_share threads clearing voxel_map m) (seq 0 threads)).

  (** *** fast *)
  (** lines 520-543: [news] are the answers of [voxel_observed_approx_set_.replaceHash]
      for the cells of the ray, whatever other threads store there; missing answers: true *)
  Fixpoint fast_cells (gs : list idx3) (news : list bool) (collisions : Z) : list idx3 :=
    match gs with
    | [] => []
    | g :: gs' =>
        let collisions := if hd true news then 0 else collisions + 1 in
        if cc_collisions cc <? collisions then [] else g :: fast_cells gs' (tl news) collisions
    end.
  (** lines 497-545, one pass of the loop of [FastTsdfIntegrator::integrateFunction].
      [start_new]: the answer of [start_voxel_approx_set_.replaceHash] *)
  Definition fast_point (start_new : Z -> bool) (news : Z -> list bool) (i : Z) : res (option (list call)) :=
    rbind (point_at i) (fun pc =>
    let '(point_C, color) := pc in
    match classify cc (cl_freespace cl) point_C with
    | Invalid => Ok (Some [])
    | v =>
        let point_G := p_apply (cl_pose cl) point_C in
        rbind (of_opt (getGlobalGridIndexFromPoint point_G (fmul (cc_subsampling cc) (inv_of voxel_size)))) (fun _ =>
        if negb (start_new i) then Ok (Some []) else
        rbind (ray_cells fuel garbage cc voxel_size origin point_G (is_clearing v) false) (fun cells =>
        Ok (option_map (fun gs => ray_calls (map (fun g =>
              MkReq origin point_G g color (getVoxelWeight (cc_tsdf cc) point_C)) (fast_cells gs (news i) 0))) cells)))
    end).
  (** [taken]: the points each thread begins before its time is up *)
  Definition fast_progs (start_new : Z -> bool) (news : Z -> list bool) (taken : list (list Z))
    : res (option (list (list call))) :=
    rcollect (map (fun is => rconcat (map (fast_point start_new news) is)) taken).
End Integrators.

Definition obind {A B} (r : res (option A)) (f : A -> res (option B)) : res (option B) :=
  rbind r (fun x => match x with Some a => f a | None => Ok None end).

(** lines 242-268 [SimpleTsdfIntegrator::integratePointCloud] *)
Definition simple_integrate (fuel : nat) (garbage : caster) (cc : CloudConfig) (cl : cloud)
  (taken : list (list Z)) (sched : list nat) (l : Layer KTsdf) : res (option (Layer KTsdf)) :=
  if negb (length (cl_points cl) =? length (cl_colors cl))%nat then Abort else
  obind (simple_progs fuel garbage cc (l_size l) cl taken) (fun progs =>
  run_threads (cc_tsdf cc) l progs sched).

(** lines 307-338 [MergedTsdfIntegrator::integratePointCloud]. [walk]: the order in which
    a hash map is iterated *)
Definition merged_integrate (fuel : nat) (garbage : caster) (cc : CloudConfig) (cl : cloud)
  (order : list Z) (walk : bundle_map -> bundle_map) (threads : nat) (sched1 sched2 : list nat)
  (l : Layer KTsdf) : res (option (Layer KTsdf)) :=
  if negb (length (cl_points cl) =? length (cl_colors cl))%nat then Abort else
  rbind (bundles cc (l_size l) cl order) (fun maps =>
  let '(vm, cm) := maps in
  obind (merged_progs fuel garbage cc (l_size l) cl threads false vm (walk vm)) (fun p1 =>
  obind (run_threads (cc_tsdf cc) l p1 sched1) (fun l1 =>
  obind (merged_progs fuel garbage cc (l_size l) cl threads true vm (walk cm)) (fun p2 =>
  run_threads (cc_tsdf cc) l1 p2 sched2)))).

(** lines 550-590 [FastTsdfIntegrator::integratePointCloud] *)
Definition fast_integrate (fuel : nat) (garbage : caster) (cc : CloudConfig) (cl : cloud)
  (start_new : Z -> bool) (news : Z -> list bool) (taken : list (list Z)) (sched : list nat)
  (l : Layer KTsdf) : res (option (Layer KTsdf)) :=
  if negb (length (cl_points cl) =? length (cl_colors cl))%nat then Abort else
  obind (fast_progs fuel garbage cc (l_size l) cl start_new news taken) (fun progs =>
  run_threads (cc_tsdf cc) l progs sched).
